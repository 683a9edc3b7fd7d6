(** Access control lists. *)
From Coq Require Import NArith ZArith List Bool String Lia.
From Verif.Btrie Require Model Spec Words Abs Proofs.
From Verif.Rest Require Import Model Spec Proofs Proofs2.
Import ListNotations.
Local Open Scope list_scope.

(** ** Addresses *)
Lemma add_nil : forall f a n, n <= Btrie.Spec.fam_bits f ->
  exists key, (match f with Btrie.Model.V4 => Btrie.Model.add_ipv4 | Btrie.Model.V6 => Btrie.Model.add_ipv6 end) Btrie.Model.Nil a n 1%N
    = Btrie.Model.Ok (Btrie.Model.new_node key n 1).
Proof.
  intros f a n L. destruct f; cbn in L; unfold Btrie.Model.add_ipv4, Btrie.Model.add_ipv6, Btrie.Model.add_route.
  - replace (Nat.leb n 32) with true by (symmetry; apply Nat.leb_le; exact L). cbv zeta.
    replace (Nat.leb n Btrie.Model.MAXBITS) with true by (symmetry; apply Nat.leb_le; unfold Btrie.Model.MAXBITS; lia).
    eexists. reflexivity.
  - cbv zeta. replace (Nat.leb n 128) with true by (symmetry; apply Nat.leb_le; exact L).
    replace (Nat.leb n Btrie.Model.MAXBITS) with true by (symmetry; apply Nat.leb_le; unfold Btrie.Model.MAXBITS; lia).
    eexists. reflexivity.
Qed.

Lemma longest_one : forall f a n d x w, n <= 128 -> w <= 128 -> List.length x = 128 ->
  Btrie.Spec.longest (Btrie.Spec.route [Btrie.Model.Add f a n d]) x w =
    if Nat.leb n w && Btrie.Spec.bits_eqb (firstn n (Btrie.Spec.addr_bits a)) (firstn n x) then Some (n, d) else None.
Proof.
  intros f a n d x w Ln Lw Lx.
  assert (R : forall p, Btrie.Spec.route [Btrie.Model.Add f a n d] p = if Btrie.Spec.bits_eqb (firstn n (Btrie.Spec.addr_bits a)) p then Some d else None) by reflexivity.
  assert (K : forall k, k <= 128 -> k <> n -> Btrie.Spec.bits_eqb (firstn n (Btrie.Spec.addr_bits a)) (firstn k x) = false).
  { intros k Lk NE. unfold Btrie.Spec.bits_eqb. destruct (list_eq_dec _ _ _) as [E|]; [|reflexivity]. exfalso. apply NE.
    apply (f_equal (@List.length bool)) in E. rewrite !firstn_length_le in E; rewrite ?Lx, ?Btrie.Words.addr_bits_len; lia. }
  induction w as [|w IH]; cbn [Btrie.Spec.longest]; rewrite R.
  - destruct n as [|n].
    + cbn [Nat.leb andb]. destruct (Btrie.Spec.bits_eqb _ _); reflexivity.
    + rewrite K by lia. reflexivity.
  - destruct (Nat.eq_dec (S w) n) as [<- | NE].
    + replace (Nat.leb (S w) (S w)) with true by (symmetry; apply Nat.leb_refl). cbn [andb].
      destruct (Btrie.Spec.bits_eqb _ _) eqn:B; [reflexivity|]. rewrite IH by lia.
      replace (Nat.leb (S w) w) with false by (symmetry; apply Nat.leb_gt; lia). reflexivity.
    + rewrite K by lia. rewrite IH by lia. f_equal. f_equal.
      destruct (Nat.leb n w) eqn:A; destruct (Nat.leb n (S w)) eqn:B; try reflexivity.
      * apply Nat.leb_le in A. apply Nat.leb_gt in B. lia.
      * apply Nat.leb_gt in A. apply Nat.leb_le in B. lia.
Qed.

Lemma run_one : forall f a n t,
  (match f with Btrie.Model.V4 => Btrie.Model.add_ipv4 | Btrie.Model.V6 => Btrie.Model.add_ipv6 end) Btrie.Model.Nil a n 1%N = Btrie.Model.Ok t ->
  Btrie.Model.run Btrie.Model.Nil [Btrie.Model.Add f a n 1%N] = Btrie.Model.Ok (t, []).
Proof. intros f a n t H. cbn [Btrie.Model.run Btrie.Model.step]. destruct f; rewrite H; reflexivity. Qed.

Lemma lookup_one : forall f a n t g x, n <= Btrie.Spec.fam_bits f -> Btrie.Spec.address a -> Btrie.Spec.address x ->
  (match f with Btrie.Model.V4 => Btrie.Model.add_ipv4 | Btrie.Model.V6 => Btrie.Model.add_ipv6 end) Btrie.Model.Nil a n 1%N = Btrie.Model.Ok t ->
  exists pl, Btrie.Model.lookup t x (Btrie.Spec.fam_bits g) = Btrie.Model.Ok (if in_network a n g x then 1%N else 0%N, pl).
Proof.
  intros f a n t g x L A X H.
  destruct (Btrie.Proofs.find_longest [Btrie.Model.Add f a n 1%N] t [] g x) as [B|(pl & E & _)].
  - constructor; [split; assumption|constructor].
  - apply run_one, H.
  - exact X.
  - exfalso. destruct (add_nil f a n L) as (key & K). rewrite H in K. injection K as ->.
    unfold Btrie.Model.lookup, Btrie.Model.find_bpm_route, Btrie.Model.new_node in B. cbn [Btrie.Model.walk] in B.
    destruct (Nat.leb n (Btrie.Spec.fam_bits g) && _); [destruct (Nat.eqb n (Btrie.Spec.fam_bits g))|]; cbn in B; try discriminate.
    destruct (Btrie.Model.BIT_AT x (n + 1)); cbn in B; discriminate.
  - exists pl. rewrite E. rewrite longest_one.
    + unfold in_network. destruct (_ && _); reflexivity.
    + destruct f; cbn in L; lia.
    + destruct g; cbn; lia.
    + apply Btrie.Words.addr_bits_len.
Qed.

Lemma split_slash_spec : forall s, split_slash s = (before_slash s, mask_text s).
Proof.
  unfold mask_text. induction s as [|c s IH]; [reflexivity|]. cbn [split_slash before_slash].
  destruct (N.eqb c 47); [reflexivity|]. rewrite IH. reflexivity.
Qed.

Lemma clamp_spec : forall w sl e, (Z.to_nat (match sl with None => Z.of_nat w | Some _ =>
    if (Z.of_nat w <? match sl with Some m => Z.max 0 (atoi e m) | None => 0 end)%Z then Z.of_nat w else match sl with Some m => Z.max 0 (atoi e m) | None => 0%Z end end))
  = match sl with None => w | Some m => Nat.min w (Z.to_nat (atoi e m)) end.
Proof.
  intros w [m|] e; [|apply Nat2Z.id]. destruct (Z.ltb_spec (Z.of_nat w) (Z.max 0 (atoi e m))); lia.
Qed.

Lemma cidr_spec : forall e l r, good_pton e -> Btrie.Spec.address (snd r) ->
  exists t, compile_cidr e l = Btrie.Model.Ok t /\ ip_ok t r = Done (ip_taken e l r).
Proof.
  intros e l r G X. unfold compile_cidr, ip_taken, stringbuf. rewrite attr_get.
  destruct (get l (bs "ip")) as [s|]; cbn [option_map]; [|exists Btrie.Model.Nil; auto].
  change (51 - 1) with 50. rewrite split_slash_spec. set (ip := before_slash (firstn 50 s)). set (sl := mask_text (firstn 50 s)). cbv zeta.
  unfold network. fold ip. fold sl. destruct (pton e ip) as [[f a]|] eqn:P; [|exists Btrie.Model.Nil; auto]. cbv zeta.
  specialize (G _ _ _ P).
  set (n := match sl with None => Btrie.Spec.fam_bits f | Some m => Nat.min (Btrie.Spec.fam_bits f) (Z.to_nat (atoi e m)) end).
  assert (L : n <= Btrie.Spec.fam_bits f) by (subst n; destruct sl; lia).
  destruct (add_nil f a n L) as (key & K). exists (Btrie.Model.new_node key n 1).
  split.
  - destruct f; rewrite <- K; f_equal; subst n.
    + apply (clamp_spec 32 sl e).
    + apply (clamp_spec 128 sl e).
  - cbn [ip_ok Btrie.Model.new_node]. unfold match_cidr. destruct r as [[g|] x]; cbn [fst snd] in *; [|reflexivity].
    destruct (lookup_one f a n _ g x L G X K) as (pl & E).
    destruct g; [unfold Btrie.Model.find_ipv4|unfold Btrie.Model.find_ipv6]; cbn [Btrie.Spec.fam_bits] in E; fold (Btrie.Model.new_node key n 1); rewrite E;
      destruct (in_network a n _ x); reflexivity.
Qed.

(** ** Expressions *)
Lemma rc_matches9 : forall e re s, good_exec e -> negb (pcre_rc e re s <=? 0)%Z = matches9 e re s.
Proof.
  intros e re s G. unfold pcre_rc, matches9. destruct (exec e re s) as [g|] eqn:E; [|reflexivity].
  destruct (G _ _ _ E) as [NE _]. destruct (Nat.leb (List.length g) 10); [|reflexivity]. destruct g; [congruence|reflexivity].
Qed.
Lemma re_spec : forall e l k s, good_exec e -> re_ok e (compile_re e l k) s = re_taken e l k s.
Proof.
  intros e l k s G. unfold compile_re, re_taken, stringbuf. rewrite attr_get. destruct (get l (bs k)) as [re|]; cbn [option_map]; [|reflexivity].
  change (256 - 1) with 255. destruct (compiles e (firstn 255 re)); cbn [re_ok negb orb]; [|reflexivity]. apply rc_matches9, G.
Qed.

Lemma forallb_filter : forall A (f g : A -> bool) l, forallb f (filter g l) = forallb (fun x => negb (g x) || f x) l.
Proof. intros A f g. induction l as [|x l IH]; cbn; [reflexivity|]. destruct (g x); cbn; rewrite IH; reflexivity. Qed.
Lemma forallb_ext' : forall A (f g : A -> bool) l, (forall x, In x l -> f x = g x) -> forallb f l = forallb g l.
Proof. intros A f g. induction l as [|x l IH]; cbn; intros H; [reflexivity|]. rewrite H, IH; auto. Qed.

Lemma accrue_spec : forall e l, accrue e l = (filter (fun a => compiles e (snd a)) (listener_attrs l), List.length (listener_attrs l)).
Proof.
  intros e. unfold listener_attrs. induction l as [|[k v] l IH]; [reflexivity|]. cbn [accrue]. rewrite IH. cbn [filter fst]. unfold listener_key, beq.
  destruct (list_eq_dec N.eq_dec (firstn 9 k) (bs "listener_")); cbn [map fst snd filter List.length]; [|reflexivity]. destruct (compiles e v); reflexivity.
Qed.
Lemma listener_spec : forall e l cfg, good_exec e -> match_listener_res e (compile_listener_res e l) cfg = listener_taken e l cfg.
Proof.
  intros e l cfg G. unfold compile_listener_res, listener_taken. rewrite accrue_spec.
  destruct (listener_attrs l) as [|a r] eqn:E; [reflexivity|]. cbn [List.length Nat.eqb match_listener_res]. rewrite <- E.
  rewrite forallb_filter. apply forallb_ext'. intros x _. f_equal. rewrite attr_get. destruct (get cfg (fst x)); [apply rc_matches9, G|reflexivity].
Qed.

Lemma conds_spec : forall e q l, good_exec e -> good_pton e -> good_client q ->
  exists c, compile_conds e l = Done c /\ conds_ok e q c = Done (taken e q l).
Proof.
  intros e q l G P C. destruct (cidr_spec e l (remote q) P C) as (t & T & I). unfold compile_conds. rewrite T. eexists. split; [reflexivity|].
  unfold conds_ok, taken. cbn [user authm cn url ipacl listener_res]. rewrite !re_spec by exact G. rewrite I. cbn [bind].
  destruct (re_taken e l "user" _); cbn [negb andb]; [|reflexivity].
  destruct (re_taken e l "auth" _); cbn [negb andb]; [|reflexivity].
  destruct (re_taken e l "cn" _); cbn [negb andb]; [|reflexivity].
  destruct (re_taken e l "url" _); cbn [negb andb]; [|reflexivity].
  destruct (ip_taken e l (remote q)); cbn [andb]; [|reflexivity]. rewrite listener_spec by exact G. reflexivity.
Qed.

(** ** Types *)
Lemma type_spec : forall l, type_allow l = is_allow l.
Proof.
  intros l. unfold type_allow, is_allow, stringbuf. rewrite attr_get. destruct (get l (bs "type")) as [t|]; cbn [option_map]; [|reflexivity].
  change (32 - 1) with 31. unfold beq. destruct (list_eq_dec N.eq_dec (firstn 31 t) (bs "allow")) as [E|E], (list_eq_dec N.eq_dec t (bs "allow")) as [F|F]; try reflexivity; exfalso.
  - apply F. rewrite <- E. symmetry. apply firstn_all2. apply (f_equal (@List.length N)) in E. rewrite firstn_length in E. change (List.length (bs "allow")) with 5 in E. lia.
  - subst t. apply E. reflexivity.
Qed.

(** ** Names *)
Definition named (conf : list node) (k : bytes) : Prop := exists n r, In n conf /\ In r (children n) /\ get r (bs "name") = Some k.

Lemma name_get_store : forall n k v k', name_get (name_store n k v) k' <> None <-> (k' = k \/ name_get n k' <> None).
Proof.
  intros n k v k'. unfold name_store. destruct (name_get n k) eqn:E.
  - split; [tauto|]. intros [-> | H]; [rewrite E; discriminate|exact H].
  - cbn [name_get]. destruct (beq k k') eqn:B; [apply beq_spec in B; subst; split; [auto|discriminate]|].
    apply beq_false in B. split; [auto|]. intros [-> | H]; [congruence|exact H].
Qed.

Lemma store_names_spec : forall l n ai k, name_get (store_names n l ai) k <> None <->
  (exists r, In r l /\ get r (bs "name") = Some k) \/ name_get n k <> None.
Proof.
  induction l as [|r l IH]; intros n ai k; cbn [store_names].
  - split; [auto|]. intros [(r & [] & _)|H]; exact H.
  - rewrite attr_get. destruct (get r (bs "name")) as [k0|] eqn:E.
    + rewrite name_get_store, IH. split.
      * intros [-> | [(r0 & I & H)|H]]; [left; exists r; split; [left; reflexivity|exact E]|left; exists r0; split; [right; exact I|exact H]|auto].
      * intros [(r0 & [<- | I] & H)|H]; [left; congruence|right; left; eauto|auto].
    + rewrite IH. split.
      * intros [(r0 & I & H)|H]; [left; exists r0; split; [right; exact I|exact H]|auto].
      * intros [(r0 & [<- | I] & H)|H]; [congruence|left; eauto|auto].
Qed.

(** ** The decision *)
Definition resolves (n : names) (r : attrs) : bool :=
  match get r (bs "skipto") with Some k => match name_get n k with Some _ => true | None => false end | None => false end.

Lemma rules_spec : forall e q n ft l, good_exec e -> good_pton e -> good_client q ->
  exists rs, load_acl_rules e n l = Done rs /\
    eval_rules e q rs ft = match find (taken e q) l with
                           | Some r => if resolves n r then Bad else Done (is_allow r)
                           | None => Done ft end.
Proof.
  intros e q n ft l G P C. induction l as [|r l IH]; cbn [load_acl_rules find]; [exists []; auto|].
  destruct (conds_spec e q r G P C) as (c & CC & CK). destruct IH as (rs & LR & ER). rewrite CC, LR. cbn [bind].
  eexists. split; [reflexivity|]. cbn [eval_rules rconds rallow skipto]. rewrite CK. cbn [bind]. destruct (taken e q r); [|exact ER].
  unfold resolves. rewrite attr_get, type_spec. destruct (get r (bs "skipto")) as [k|]; [|reflexivity]. destruct (name_get n k); reflexivity.
Qed.

(** what the evaluation gives *)
Fixpoint result (tk : attrs -> bool) (namedb : list node -> bytes -> bool) (l : list node) : res bool :=
  match l with
  | [] => Done false
  | a :: rest =>
      if tk (nattrs a)
      then match find tk (children a) with
           | Some r => if match get r (bs "skipto") with Some k => namedb (a :: rest) k | None => false end then Bad else Done (is_allow r)
           | None => Done false
           end
      else result tk namedb rest
  end.
Definition namedb (conf : list node) (k : bytes) : bool :=
  existsb (fun n => existsb (fun r => match get r (bs "name") with Some x => beq x k | None => false end) (children n)) conf.
Lemma namedb_spec : forall conf k, namedb conf k = true <-> named conf k.
Proof.
  intros conf k. unfold namedb, named. rewrite existsb_exists. split.
  - intros (n & I & H). apply existsb_exists in H. destruct H as (r & Ir & H). destruct (get r (bs "name")) as [x|] eqn:E; [|discriminate].
    apply beq_spec in H. subst. exists n, r. auto.
  - intros (n & r & I & Ir & H). exists n. split; [exact I|]. apply existsb_exists. exists r. split; [exact Ir|]. rewrite H. apply beq_refl.
Qed.

Lemma load_spec : forall e q l ai, good_exec e -> good_pton e -> good_client q ->
  exists n acls, load e l ai = Done (n, acls) /\ (forall k, name_get n k <> None <-> named l k) /\
    eval e q acls = result (taken e q) namedb l.
Proof.
  intros e q l. induction l as [|a l IH]; intros ai G P C.
  - exists [], []. split; [reflexivity|]. split; [|reflexivity]. intros k. cbn. split; [congruence|]. intros (n & r & [] & _).
  - cbn [load]. destruct (IH (S ai) G P C) as (n & acls & L & N0 & E). rewrite L. cbn [bind fst snd].
    destruct (conds_spec e q (nattrs a) G P C) as (c & CC & CK). rewrite CC. cbn [bind].
    set (n' := store_names n (children a) ai).
    destruct (rules_spec e q n' default_allow (children a) G P C) as (rs & LR & ER). rewrite LR. cbn [bind].
    assert (N1 : forall k, name_get n' k <> None <-> named (a :: l) k).
    { intros k. unfold n'. rewrite store_names_spec, N0. unfold named. split.
      - intros [(r & I & H)|(m & r & I & Ir & H)]; [exists a, r; split; [left; reflexivity|auto]|exists m, r; split; [right; exact I|auto]].
      - intros (m & r & [<- | I] & Ir & H); [left; eauto|right; eauto]. }
    eexists n', _. split; [reflexivity|]. split; [exact N1|].
    cbn [eval aconds arules aallow]. rewrite CK. cbn [bind]. cbn [result]. destruct (taken e q (nattrs a)); [|exact E]. rewrite ER.
    destruct (find (taken e q) (children a)) as [r|]; [|reflexivity]. unfold resolves. destruct (get r (bs "skipto")) as [k|]; [|reflexivity].
    replace (namedb (a :: l) k) with (match name_get n' k with Some _ => true | None => false end); [reflexivity|].
    apply eq_true_iff_eq. rewrite namedb_spec, <- N1. destruct (name_get n' k); split; congruence.
Qed.

Lemma auth_result : forall e q conf, good_exec e -> good_pton e -> good_client q ->
  client_cert_auth e conf q = result (taken e q) namedb conf.
Proof.
  intros e q conf G P C. unfold client_cert_auth, load_rules. destruct (load_spec e q conf 1 G P C) as (n & acls & -> & _ & E).
  cbn [bind snd]. exact E.
Qed.

Lemma find_split : forall A (f : A -> bool) l x, find f l = Some x ->
  exists pre post, l = pre ++ x :: post /\ f x = true /\ forall y, In y pre -> f y = false.
Proof.
  intros A f. induction l as [|a l IH]; intros x H; cbn in H; [discriminate|]. destruct (f a) eqn:E.
  - injection H as <-. exists [], l. split; [reflexivity|]. split; [exact E|]. intros y [].
  - destruct (IH _ H) as (pre & post & -> & F & N0). exists (a :: pre), post. split; [reflexivity|]. split; [exact F|]. intros y [<- | I]; auto.
Qed.
Lemma find_skip : forall A (f : A -> bool) pre x post, f x = true -> (forall y, In y pre -> f y = false) -> find f (pre ++ x :: post) = Some x.
Proof.
  intros A f pre x post F N0. induction pre as [|a pre IH]; cbn; [rewrite F; reflexivity|]. rewrite N0 by (left; reflexivity). apply IH. intros y I. apply N0. right. exact I.
Qed.

Lemma result_bad : forall tk conf, result tk namedb conf = Bad <-> skips tk conf.
Proof.
  intros tk conf. split.
  - induction conf as [|a conf IH]; intros H; cbn [result] in H; [discriminate|]. destruct (tk (nattrs a)) eqn:T.
    + destruct (find tk (children a)) as [r|] eqn:F; [|discriminate].
      destruct (get r (bs "skipto")) as [k|] eqn:SK; [|discriminate]. destruct (namedb (a :: conf) k) eqn:NM; [|discriminate].
      apply namedb_spec in NM. destruct NM as (n' & r' & I & Ir & Hn). destruct (find_split _ _ _ _ F) as (rpre & rpost & Q & Tr & N0).
      exists [], a, conf, rpre, r, rpost, k, n', r'. split; [reflexivity|]. split; [intros m []|]. auto 10.
    + destruct (IH H) as (pre & n & post & rpre & r & rpost & k & n' & r' & -> & A & B).
      exists (a :: pre), n, post, rpre, r, rpost, k, n', r'. split; [reflexivity|]. split; [|exact B]. intros m [<- | I]; auto.
  - intros (pre & n & post & rpre & r & rpost & k & n' & r' & -> & A & T & Q & N0 & Tr & SK & I & Ir & Hn).
    induction pre as [|a pre IH]; cbn [app result].
    + rewrite T, Q, find_skip by assumption. rewrite SK. replace (namedb (n :: post) k) with true; [reflexivity|]. symmetry. apply namedb_spec. exists n', r'. auto.
    + rewrite A by (left; reflexivity). apply IH. intros m Im. apply A. right. exact Im.
Qed.
Lemma result_done : forall tk conf b, result tk namedb conf = Done b -> b = decide tk (fun _ => false) conf.
Proof.
  intros tk conf b. unfold decide. induction conf as [|a conf IH]; cbn [result find]; intros H; [congruence|]. destruct (tk (nattrs a)).
  - destruct (find tk (children a)) as [r|]; [|congruence]. destruct (match get r (bs "skipto") with Some k => namedb (a :: conf) k | None => false end); congruence.
  - exact (IH H).
Qed.

Lemma auth_exact : forall e q conf, good_exec e -> good_pton e -> good_client q ->
  client_cert_auth e conf q = Done (decide (taken e q) (fun _ => false) conf) \/
  (client_cert_auth e conf q = Bad /\ skips (taken e q) conf).
Proof.
  intros e q conf G P C. rewrite auth_result by assumption. destruct (result (taken e q) namedb conf) eqn:R.
  - left. f_equal. apply result_done, R.
  - right. split; [reflexivity|]. apply result_bad, R.
Qed.
Lemma auth_bad : forall e q conf, good_exec e -> good_pton e -> good_client q ->
  (client_cert_auth e conf q = Bad <-> skips (taken e q) conf).
Proof. intros e q conf G P C. rewrite auth_result by assumption. apply result_bad. Qed.

Lemma no_skipto_skips : forall tk conf, no_skipto conf -> ~ skips tk conf.
Proof.
  intros tk conf H (pre & n & post & rpre & r & rpost & k & n' & r' & -> & _ & _ & Q & _ & _ & SK & _).
  rewrite (H n r) in SK; [discriminate|apply in_elt|rewrite Q; apply in_elt].
Qed.

(** ** Where the conditions are taken as written *)
Lemma re_same : forall e l k s, (forall re, get l (bs k) = Some re -> good_re e re) -> re_taken e l k s = re_holds e l k s.
Proof.
  intros e l k s H. unfold re_taken, re_holds. destruct (get l (bs k)) as [re|]; [|reflexivity]. destruct (H re eq_refl) as (L & C & M).
  rewrite firstn_all2 by exact L. rewrite C. cbn [negb orb]. unfold matches9, matches. destruct (exec e re s) as [g|] eqn:E; [|reflexivity]. apply Nat.leb_le. eauto.
Qed.
Lemma holds_same : forall e q l, good_attrs e q l -> taken e q l = holds e q l.
Proof.
  intros e q l (R & I & L). unfold taken, holds. rewrite !re_same by (intros re H; eapply R; [|exact H]; cbn; tauto).
  f_equal; [f_equal|].
  - unfold ip_taken, ip_holds. destruct (get l (bs "ip")) as [s|]; [|reflexivity]. destruct (I s eq_refl) as (LS & f & a & n & NW & F).
    rewrite firstn_all2 by exact LS. rewrite NW. destruct F as [-> | ->]; [reflexivity|]. destruct f; reflexivity.
  - unfold listener_taken, listener_holds. apply forallb_ext'. intros x Ix. destruct (L x Ix) as [C M]. rewrite C. cbn [negb orb].
    destruct (get (config q) (fst x)) as [v|]; [|reflexivity]. unfold matches9, matches. destruct (exec e (snd x) v) as [g|] eqn:E; [|reflexivity]. apply Nat.leb_le. eauto.
Qed.
Lemma find_ext' : forall A (f g : A -> bool) l, (forall x, In x l -> f x = g x) -> find f l = find g l.
Proof. intros A f g. induction l as [|x l IH]; cbn; intros H; [reflexivity|]. rewrite H, IH; auto. Qed.
Lemma decide_same : forall f g fb conf, (forall n, In n conf -> f (nattrs n) = g (nattrs n) /\ forall r, In r (children n) -> f r = g r) ->
  decide f fb conf = decide g fb conf.
Proof.
  intros f g fb conf H. unfold decide. rewrite (find_ext' _ (fun n => f (nattrs n)) (fun n => g (nattrs n))) by (intros; apply H; assumption).
  destruct (find (fun n => g (nattrs n)) conf) as [n|] eqn:E; [|reflexivity]. apply find_some in E.
  rewrite (find_ext' _ f g) by (apply H; tauto). reflexivity.
Qed.
Lemma auth_good : forall e q conf, good_exec e -> good_pton e -> good_client q -> good_conf e q conf -> no_skipto conf ->
  client_cert_auth e conf q = Done (decide (holds e q) (fun _ => false) conf).
Proof.
  intros e q conf G P C GC NS. destruct (auth_exact e q conf G P C) as [E|[_ SK]]; [|exfalso; exact (no_skipto_skips _ _ NS SK)].
  rewrite E. f_equal. apply decide_same. intros n I. destruct (GC n I) as [A B]. split; [apply holds_same, A|]. intros r Ir. apply holds_same, B, Ir.
Qed.

Lemma granted : forall e q conf, good_exec e -> good_pton e -> good_client q -> client_cert_auth e conf q = Done true ->
  exists n r, In n conf /\ In r (children n) /\ is_allow r = true /\ taken e q (nattrs n) = true /\ taken e q r = true.
Proof.
  intros e q conf G P C H. destruct (auth_exact e q conf G P C) as [E|[E _]]; [|congruence]. rewrite E in H. injection H as H. unfold decide in H.
  destruct (find (fun n => taken e q (nattrs n)) conf) as [n|] eqn:F; [|discriminate]. apply find_some in F.
  destruct (find (taken e q) (children n)) as [r|] eqn:F2; [|discriminate]. apply find_some in F2. exists n, r. tauto.
Qed.
