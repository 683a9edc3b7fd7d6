(** Routes. *)
From Coq Require Import NArith ZArith List Bool String Lia.
From Verif.Rest Require Import Model Spec.
Import ListNotations.
Local Open Scope list_scope.

Lemma beq_spec : forall a b, beq a b = true <-> a = b.
Proof. intros. unfold beq. destruct (list_eq_dec _ _ _); split; intros; congruence. Qed.
Lemma beq_refl : forall a, beq a a = true.
Proof. intros. apply beq_spec. reflexivity. Qed.
Lemma beq_false : forall a b, beq a b = false <-> a <> b.
Proof. intros. unfold beq. destruct (list_eq_dec _ _ _); split; intros; congruence. Qed.

(** what the table holds for a base: the accepted registrations, in order *)
Definition for_base (e : env) (gs : list registration) (b : bytes) : list route :=
  map snd (filter (fun g => beq (fst g) b && compiles e (expression (snd g))) gs).

Definition ends (b : bytes) : bool := negb (Nat.eqb (List.length b) 0 || negb (N.eqb (nth (List.length b - 1) b 0%N) 47)).

Lemma ends_spec : forall b, ends b = true <-> exists x, b = x ++ [47%N].
Proof.
  intros b. unfold ends. destruct b as [|c r] using rev_ind.
  - split; [discriminate|]. intros (x & H). destruct x; discriminate.
  - rewrite app_length, Nat.add_1_r. cbn [Nat.eqb orb]. rewrite negb_involutive.
    replace (S (List.length r) - 1) with (List.length r) by lia. rewrite nth_middle.
    split; [intros H%N.eqb_eq; subst; eauto|]. intros (x & H). apply app_inj_tail in H. destruct H as [_ H]. rewrite H. reflexivity.
Qed.

(** the table as a function of the base *)
Definition rules_at (t : table) (b : bytes) : option (list route) := option_map rules (retrieve t b).

Lemma retrieve_base : forall t b c, retrieve t b = Some c -> base c = b.
Proof.
  induction t as [|c0 t IH]; cbn; intros b c H; [discriminate|].
  destruct (beq (base c0) b) eqn:E; [|eauto]. injection H as <-. apply beq_spec, E.
Qed.

Lemma rules_at_append : forall t b r b', rules_at t b <> None ->
  rules_at (append_rule t b r) b' = if beq b b' then option_map (fun l => l ++ [r]) (rules_at t b) else rules_at t b'.
Proof.
  unfold rules_at. induction t as [|c t IH]; cbn; intros b r b' H; [congruence|].
  destruct (beq (base c) b) eqn:E.
  - apply beq_spec in E. cbn [retrieve base]. destruct (beq b b') eqn:F.
    + apply beq_spec in F. subst. rewrite beq_refl. reflexivity.
    + rewrite E, F. reflexivity.
  - cbn [retrieve]. destruct (beq (base c) b') eqn:F.
    + apply beq_spec in F. subst. destruct (beq b (base c)) eqn:G; [|reflexivity]. apply beq_spec in G. subst. rewrite beq_refl in E. discriminate.
    + apply IH, H.
Qed.

Lemma rules_at_new : forall t b b', rules_at t b = None ->
  rules_at (t ++ [mkcont b []]) b' = if beq b b' then Some [] else rules_at t b'.
Proof.
  unfold rules_at. induction t as [|c t IH]; cbn; intros b b' H.
  - destruct (beq b b'); reflexivity.
  - destruct (beq (base c) b) eqn:E; [discriminate|].
    destruct (beq (base c) b') eqn:F.
    + apply beq_spec in F. subst. destruct (beq b (base c)) eqn:G; [|reflexivity]. apply beq_spec in G. subst. rewrite beq_refl in E. discriminate.
    + apply IH, H.
Qed.

Lemma beq_sym : forall a b, beq a b = beq b a.
Proof. intros. unfold beq. destruct (list_eq_dec N.eq_dec a b), (list_eq_dec N.eq_dec b a); congruence. Qed.

(** the accepted registrations *)
Definition ok (e : env) (g : registration) : bool := ends (fst g) && compiles e (expression (snd g)).

Lemma ok_spec : forall e g, ok e g = true <-> accepted e g.
Proof. intros e g. unfold ok, accepted. rewrite andb_true_iff, ends_spec. reflexivity. Qed.

Lemma register_spec : forall e t g b,
  rules_at (register e t g) b =
    if ok e g && beq (fst g) b then Some (match rules_at t b with Some l => l | None => [] end ++ [snd g]) else rules_at t b.
Proof.
  intros e t [gb r] b. unfold register, new_rule, ok. cbn [fst snd]. cbv zeta.
  assert (E : (Nat.eqb (List.length gb) 0 || negb (N.eqb (nth (List.length gb - 1) gb 0%N) 47)) = negb (ends gb)).
  { unfold ends. rewrite negb_involutive. reflexivity. }
  rewrite E. destruct (ends gb); cbn [negb andb]; [|reflexivity].
  destruct (compiles e (expression r)); cbn [negb andb]; [|reflexivity].
  destruct (retrieve t gb) as [c|] eqn:R.
  - rewrite rules_at_append by (unfold rules_at; rewrite R; discriminate).
    destruct (beq gb b) eqn:F; [|reflexivity]. apply beq_spec in F. subst. unfold rules_at. rewrite R. reflexivity.
  - assert (N0 : rules_at t gb = None) by (unfold rules_at; rewrite R; reflexivity).
    rewrite rules_at_append by (rewrite rules_at_new, beq_refl by exact N0; discriminate).
    rewrite !rules_at_new, beq_refl by exact N0.
    destruct (beq gb b) eqn:F; [|reflexivity]. apply beq_spec in F. subst. rewrite N0. reflexivity.
Qed.

Definition own (e : env) (b : bytes) (g : registration) : bool := ok e g && beq (fst g) b.

Lemma registered_from : forall e gs t b,
  rules_at (fold_left (register e) gs t) b =
    match rules_at t b, filter (own e b) gs with
    | None, [] => None
    | o, l => Some (match o with Some x => x | None => [] end ++ map snd l)
    end.
Proof.
  intros e. induction gs as [|g gs IH]; intros t b; cbn [fold_left filter].
  - destruct (rules_at t b); cbn; rewrite ?app_nil_r; reflexivity.
  - rewrite IH, register_spec. unfold own at 2. fold (own e b g). unfold own.
    destruct (ok e g && beq (fst g) b) eqn:E.
    + fold (own e b). destruct (rules_at t b) as [l|]; cbn [map]; rewrite <- ?app_assoc; reflexivity.
    + reflexivity.
Qed.

Lemma registered_at : forall e gs b,
  rules_at (registered e gs) b = match filter (own e b) gs with [] => None | l => Some (map snd l) end.
Proof. intros. unfold registered. rewrite registered_from. reflexivity. Qed.

Lemma own_spec : forall e b g, own e b g = true <-> accepted e g /\ fst g = b.
Proof. intros. unfold own. rewrite andb_true_iff, ok_spec, beq_spec. reflexivity. Qed.

Lemma is_base_at : forall e gs b, is_base e gs b <-> rules_at (registered e gs) b <> None.
Proof.
  intros e gs b. rewrite registered_at. unfold is_base. split.
  - intros (g & I & A & B). assert (F : In g (filter (own e b) gs)) by (apply filter_In; split; [exact I|apply own_spec; auto]).
    destruct (filter (own e b) gs); [contradiction|discriminate].
  - intros H. destruct (filter (own e b) gs) as [|g l] eqn:F; [congruence|].
    assert (I : In g (filter (own e b) gs)) by (rewrite F; left; reflexivity).
    apply filter_In in I. destruct I as [I O]. apply own_spec in O. exists g. tauto.
Qed.

(** ** The base *)
Lemma find_base_spec : forall t u n, n <= List.length u ->
  match find_base t u n with
  | Some (c, m) => 0 < m <= n /\ retrieve t (firstn m u) = Some c /\ ends (firstn m u) = true /\
                   forall k, m < k <= n -> ends (firstn k u) = true -> retrieve t (firstn k u) = None
  | None => forall k, 0 < k <= n -> ends (firstn k u) = true -> retrieve t (firstn k u) = None
  end.
Proof.
  intros t u. assert (EN : forall m, m < List.length u -> ends (firstn (S m) u) = N.eqb (nth m u 0%N) 47).
  { intros m L. unfold ends. rewrite firstn_length_le by lia. cbn [Nat.eqb orb]. rewrite negb_involutive.
    replace (S m - 1) with m by lia. f_equal.
    rewrite <- (firstn_skipn (S m) u) at 2. rewrite app_nth1; [reflexivity|]. rewrite firstn_length_le; lia. }
  induction n as [|m IH]; intros L; cbn [find_base].
  - intros k Hk. lia.
  - specialize (IH ltac:(lia)). destruct (N.eqb (nth m u 0%N) 47) eqn:E.
    + destruct (retrieve t (firstn (S m) u)) as [c|] eqn:R.
      * split; [lia|]. split; [exact R|]. split; [rewrite EN by lia; exact E|]. intros k Hk. lia.
      * destruct (find_base t u m) as [[c k]|].
        -- destruct IH as (A & B & C & D). split; [lia|]. split; [exact B|]. split; [exact C|].
           intros j Hj Ej. destruct (Nat.eq_dec j (S m)) as [-> | ]; [exact R|]. apply D; [lia|exact Ej].
        -- intros j Hj Ej. destruct (Nat.eq_dec j (S m)) as [-> | ]; [exact R|]. apply IH; [lia|exact Ej].
    + assert (X : forall j, j = S m -> ends (firstn j u) = true -> False) by (intros j -> Ej; rewrite EN in Ej by lia; congruence).
      destruct (find_base t u m) as [[c k]|].
      * destruct IH as (A & B & C & D). split; [lia|]. split; [exact B|]. split; [exact C|].
        intros j Hj Ej. destruct (Nat.eq_dec j (S m)) as [Q|]; [exfalso; eauto|]. apply D; [lia|exact Ej].
      * intros j Hj Ej. destruct (Nat.eq_dec j (S m)) as [Q|]; [exfalso; eauto|]. apply IH; [lia|exact Ej].
Qed.

Lemma is_base_ends : forall e gs b, is_base e gs b -> ends b = true.
Proof. intros e gs b (g & _ & [H _] & <-). apply ends_spec, H. Qed.

Lemma firstn_app_exact : forall A (a b : list A), firstn (List.length a) (a ++ b) = a.
Proof. intros. rewrite firstn_app, Nat.sub_diag, firstn_all, firstn_O, app_nil_r. reflexivity. Qed.
Lemma skipn_app_exact : forall A (a b : list A), skipn (List.length a) (a ++ b) = b.
Proof. intros. rewrite skipn_app, Nat.sub_diag, skipn_all. reflexivity. Qed.

Lemma retrieve_rules_at : forall t b, retrieve t b = None <-> rules_at t b = None.
Proof. intros. unfold rules_at. destruct (retrieve t b); split; (discriminate || reflexivity). Qed.

Lemma base_found : forall e gs u c m, find_base (registered e gs) u (List.length u) = Some (c, m) ->
  longest_base e gs u (firstn m u) (skipn m u) /\ rules c = map snd (filter (own e (firstn m u)) gs) /\ filter (own e (firstn m u)) gs <> [].
Proof.
  intros e gs u c m H. pose proof (find_base_spec (registered e gs) u (List.length u) (le_n _)) as S0. rewrite H in S0.
  destruct S0 as (A & B & C & D).
  assert (RA : rules_at (registered e gs) (firstn m u) = Some (rules c)) by (unfold rules_at; rewrite B; reflexivity).
  split.
  - split; [symmetry; apply firstn_skipn|]. split; [apply is_base_at; rewrite RA; discriminate|].
    intros b' r' Eu Hb. rewrite firstn_length_le by lia. destruct (Nat.le_gt_cases (List.length b') m) as [L|L]; [exact L|exfalso].
    assert (F : firstn (List.length b') u = b') by (rewrite Eu; apply firstn_app_exact).
    assert (N0 : retrieve (registered e gs) (firstn (List.length b') u) = None).
    { apply D; [split; [exact L|rewrite Eu, app_length; lia]|]. rewrite F. eapply is_base_ends, Hb. }
    rewrite F in N0. apply retrieve_rules_at in N0. apply is_base_at in Hb. congruence.
  - rewrite registered_at in RA. destruct (filter (own e (firstn m u)) gs); [discriminate|]. injection RA as <-. split; [reflexivity|discriminate].
Qed.

Lemma base_none : forall e gs u, find_base (registered e gs) u (List.length u) = None -> forall b rest, ~ longest_base e gs u b rest.
Proof.
  intros e gs u H b rest (E & B & _). pose proof (find_base_spec (registered e gs) u (List.length u) (le_n _)) as S0. rewrite H in S0.
  assert (F : firstn (List.length b) u = b) by (rewrite E; apply firstn_app_exact).
  pose proof (is_base_ends _ _ _ B) as EB.
  assert (N0 : retrieve (registered e gs) (firstn (List.length b) u) = None).
  { apply S0; [|rewrite F; exact EB]. split; [|rewrite E, app_length; lia]. destruct b; [discriminate|cbn; lia]. }
  rewrite F in N0. apply retrieve_rules_at in N0. apply is_base_at in B. congruence.
Qed.

Lemma longest_unique : forall e gs u b r b' r', longest_base e gs u b r -> longest_base e gs u b' r' -> b = b' /\ r = r'.
Proof.
  intros e gs u b r b' r' (E & B & M) (E' & B' & M').
  pose proof (M _ _ E' B'). pose proof (M' _ _ E B). assert (L : List.length b = List.length b') by lia.
  assert (b = b') by (rewrite <- (firstn_app_exact _ b r), <- (firstn_app_exact _ b' r'), L; congruence). subst b'.
  split; [reflexivity|]. apply (app_inv_head b). congruence.
Qed.

(** ** The rule *)
Lemma fits_spec : forall q r, method_fits q r = true <-> fits q r.
Proof.
  intros q r. unfold method_fits, fits. destruct (is_websocket q); [|apply beq_spec].
  rewrite andb_true_iff, beq_spec, negb_true_iff. apply and_iff_compat_l.
  destruct (websocket_protocol r) as [a|], (protocol q) as [b|]; split; intros H; try reflexivity; try (intros; congruence).
  - intros x y Hx Hy. injection Hx as <-. injection Hy as <-. apply negb_false_iff in H. apply beq_spec, H.
  - apply negb_false_iff, beq_spec. auto.
Qed.

Lemma rc_spec : forall e re s, good_exec e -> (0 <? pcre_rc e re s)%Z = true <-> exists g, matched e re s g.
Proof.
  intros e re s G. unfold pcre_rc, matched. destruct (exec e re s) as [g|] eqn:E.
  - destruct (G _ _ _ E) as [NE _]. destruct (Nat.leb (List.length g) 10) eqn:L.
    + apply Nat.leb_le in L. split; [eauto|]. intros _. apply Z.ltb_lt. destruct g; [congruence|cbn; lia].
    + apply Nat.leb_gt in L. split; [intros H; apply Z.ltb_lt in H; lia|]. intros (g0 & H & H0). injection H as <-. lia.
  - split; [intros H; apply Z.ltb_lt in H; lia|]. intros (g0 & H & H0). discriminate.
Qed.

Lemma copy_group_spec : forall s p, span_in s p ->
  exists x, copy_group s (match p with Some (a, b) => (Z.of_nat a, Z.of_nat b) | None => (-1, -1)%Z end) = Done x /\ group_text s p x.
Proof.
  intros s [[a b]|] H; unfold copy_group, group_text.
  - cbn in H. replace (Z.of_nat b - Z.of_nat a <? 0)%Z with false by (symmetry; apply Z.ltb_ge; lia).
    destruct (Z.of_nat b - Z.of_nat a =? 0)%Z eqn:E.
    + apply Z.eqb_eq in E. exists []. split; [reflexivity|]. exists (firstn a s), (skipn a s). cbn [app].
      rewrite firstn_skipn, firstn_length_le by lia. cbn. repeat split; lia.
    + replace ((Z.of_nat a <? 0) || (Z.of_nat (List.length s) <? Z.of_nat b))%Z with false by (symmetry; apply orb_false_iff; split; apply Z.ltb_ge; lia).
      rewrite Nat2Z.id. replace (Z.to_nat (Z.of_nat b - Z.of_nat a)) with (b - a) by lia.
      eexists. split; [reflexivity|]. exists (firstn a s), (skipn (b - a) (skipn a s)).
      rewrite firstn_skipn, firstn_skipn, firstn_length_le by lia. split; [reflexivity|]. split; [reflexivity|].
      rewrite firstn_length_le; [reflexivity|]. rewrite skipn_length. lia.
  - cbn. exists []. auto.
Qed.

Lemma copy_groups_spec : forall s g, Forall (span_in s) g ->
  exists ps, copy_groups s (map (fun p => match p with Some (a, b) => (Z.of_nat a, Z.of_nat b) | None => (-1, -1)%Z end) g) = Done ps
             /\ Forall2 (group_text s) g ps.
Proof.
  induction g as [|p g IH]; intros F; cbn [map copy_groups]; [exists []; auto|].
  inversion_clear F. destruct (copy_group_spec s p H) as (x & -> & T). destruct (IH H0) as (ps & -> & F2).
  cbn. eauto.
Qed.

Lemma ovector_params : forall e re s g, good_exec e -> exec e re s = Some g ->
  exists ps, copy_groups s (tl (ovector e re s)) = Done ps /\ params_of s g ps.
Proof.
  intros e re s g G E. destruct (G _ _ _ E) as [NE F]. unfold ovector. rewrite E. destruct g as [|p0 g]; [congruence|].
  cbn [map tl]. inversion_clear F. destruct (copy_groups_spec s g H0) as (ps & C & F2). exists ps. split; [exact C|]. exists p0, g. auto.
Qed.

Definition rmatch (e : env) (q : request) (s : bytes) (r : route) : Prop := fits q r /\ exists g, matched e (expression r) s g.

Lemma find_rule_spec : forall e q s l, good_exec e ->
  (exists pre r post g ps, l = pre ++ r :: post /\ fits q r /\ matched e (expression r) s g /\ params_of s g ps /\
     (forall x, In x pre -> ~ rmatch e q s x) /\ find_rule e q s l = Done (Some (r, ps))) \/
  ((forall x, In x l -> ~ rmatch e q s x) /\ find_rule e q s l = Done None).
Proof.
  intros e q s l G. induction l as [|r l IH]; cbn [find_rule]; [right; auto|].
  destruct (method_fits q r && (0 <? pcre_rc e (expression r) s)%Z) eqn:E.
  - apply andb_true_iff in E. destruct E as [F R]. apply fits_spec in F. apply rc_spec in R; [|exact G]. destruct R as (g & M).
    destruct (ovector_params e _ _ _ G (proj1 M)) as (ps & C & P). left. exists [], r, l, g, ps. rewrite C. cbn. tauto.
  - assert (NR : ~ rmatch e q s r).
    { intros [F R]. apply fits_spec in F. rewrite <- rc_spec in R by exact G. rewrite F, R in E. discriminate. }
    destruct IH as [(pre & r0 & post & g & ps & -> & A & B & C & D & Q)|[D Q]].
    + left. exists (r :: pre), r0, post, g, ps. split; [reflexivity|]. split; [exact A|]. split; [exact B|]. split; [exact C|].
      split; [|exact Q]. intros x [<- | I]; auto.
    + right. split; [|exact Q]. intros x [<- | I]; auto.
Qed.

(** from the list of a container back to the registrations *)
Lemma map_split : forall A B (f : A -> B) l pre y post, map f l = pre ++ y :: post ->
  exists p x q, l = p ++ x :: q /\ map f p = pre /\ f x = y /\ map f q = post.
Proof.
  intros A B f l pre. revert l. induction pre as [|z pre IH]; intros l y post H; destruct l as [|a l]; cbn in H; try discriminate.
  - injection H as H1 H2. exists [], a, l. auto.
  - injection H as H1 H2. destruct (IH _ _ _ H2) as (p & x & q & -> & <- & <- & <-). exists (a :: p), x, q. cbn. rewrite H1. auto.
Qed.
Lemma filter_split : forall A (f : A -> bool) l pre y post, filter f l = pre ++ y :: post ->
  exists p q, l = p ++ y :: q /\ filter f p = pre.
Proof.
  intros A f. induction l as [|a l IH]; intros pre y post H; cbn in H; [destruct pre; discriminate|].
  destruct (f a) eqn:E.
  - destruct pre as [|z pre]; cbn in H; injection H as <- H.
    + exists [], l. auto.
    + destruct (IH _ _ _ H) as (p & q & -> & F). exists (a :: p), q. cbn. rewrite E, F. auto.
  - destruct (IH _ _ _ H) as (p & q & -> & F). exists (a :: p), q. cbn. rewrite E. auto.
Qed.

Lemma not_options : forall q, rmethod q <> bs "OPTIONS" -> beq (bs "OPTIONS") (rmethod q) = false.
Proof. intros q H. apply beq_false. congruence. Qed.

Lemma candidate_rmatch : forall e q b rest g, candidate e q b rest g <-> own e b g = true /\ rmatch e q rest (snd g).
Proof. intros. unfold candidate, rmatch. rewrite own_spec. tauto. Qed.

(** a route is found exactly where there is one *)
Lemma route_found : forall e gs q w, good_exec e -> rmethod q <> bs "OPTIONS" ->
  (exists b rest g gr ps, longest_base e gs (uri q) b rest /\ first_such gs (candidate e q b rest) g /\
     matched e (expression (snd g)) rest gr /\ params_of rest gr ps /\
     matching_route e (registered e gs) q w = Done (Some (snd g, ps), None)) \/
  ((forall b rest g, longest_base e gs (uri q) b rest -> In g gs -> ~ candidate e q b rest g) /\
   matching_route e (registered e gs) q w = Done (None, None)).
Proof.
  intros e gs q w G NO. unfold matching_route.
  destruct (find_base (registered e gs) (uri q) (List.length (uri q))) as [[c m]|] eqn:FB.
  - apply base_found in FB. destruct FB as (LB & RC & _). rewrite not_options by exact NO. cbv zeta.
    set (b := firstn m (uri q)) in *. set (rest := skipn m (uri q)) in *.
    destruct (find_rule_spec e q rest (rules c) G) as [(pre & r & post & g & ps & Q & F & M & P & D & E)|[D E]]; rewrite E; cbn [bind].
    + left. rewrite RC in Q. destruct (map_split _ _ _ _ _ _ _ Q) as (p & x & q0 & Q1 & Q2 & Q3 & _).
      pose proof (filter_split _ _ _ _ _ _ Q1) as (p1 & q1 & Q4 & Q5).
      assert (O : own e b x = true).
      { assert (I : In x (filter (own e b) gs)) by (rewrite Q1; apply in_elt). apply filter_In in I. tauto. }
      exists b, rest, x, g, ps. subst r. split; [exact LB|]. split.
      * exists p1, q1. split; [exact Q4|]. split; [apply candidate_rmatch; split; [exact O|split; eauto]|].
        intros y Iy Cy. apply candidate_rmatch in Cy. destruct Cy as [Oy Ry]. apply (D (snd y)); [|exact Ry].
        rewrite <- Q2. apply in_map. rewrite <- Q5. apply filter_In. auto.
      * auto.
    + right. split; [|reflexivity]. intros b' rest' g L' I C. destruct (longest_unique _ _ _ _ _ _ _ LB L') as [<- <-].
      apply candidate_rmatch in C. destruct C as [O R]. apply (D (snd g)); [|exact R]. rewrite RC. apply in_map, filter_In. auto.
  - right. split; [|reflexivity]. intros b rest g L. exfalso. exact (base_none _ _ _ FB _ _ L).
Qed.

Lemma first_such_unique : forall A (l : list A) P x y, first_such l P x -> first_such l P y -> x = y.
Proof.
  intros A l P x y (p & q & E & Px & N1) (p' & q' & E' & Py & N2). subst l. revert p' E' N2.
  induction p as [|a p IH]; intros p' E' N2.
  - destruct p' as [|b p']; cbn in E'; injection E' as -> E'; [reflexivity|]. exfalso. apply (N2 b); [left; reflexivity|exact Px].
  - destruct p' as [|b p']; cbn in E'; injection E' as -> E'.
    + exfalso. apply (N1 y); [left; reflexivity|exact Py].
    + apply (IH (fun z Hz => N1 z (or_intror Hz)) p' E' (fun z Hz => N2 z (or_intror Hz))).
Qed.

Lemma route_iff : forall e gs q w r, good_exec e -> rmethod q <> bs "OPTIONS" ->
  ((exists ps, matching_route e (registered e gs) q w = Done (Some (r, ps), None)) <->
   exists b rest g, longest_base e gs (uri q) b rest /\ first_such gs (candidate e q b rest) g /\ snd g = r).
Proof.
  intros e gs q w r G NO. destruct (route_found e gs q w G NO) as [(b & rest & g & gr & ps & L & F & _ & _ & E)|[N0 E]].
  - split.
    + intros (ps' & E'). rewrite E in E'. injection E' as E1 _. exists b, rest, g. auto.
    + intros (b' & rest' & g' & L' & F' & <-). destruct (longest_unique _ _ _ _ _ _ _ L L') as [<- <-].
      rewrite (first_such_unique _ _ _ _ _ F' F). exists ps. exact E.
  - split.
    + intros (ps' & E'). congruence.
    + intros (b & rest & g & L & (p & q0 & Q & C & _) & _). exfalso. apply (N0 b rest g L); [subst gs; apply in_elt|exact C].
Qed.

Lemma params_spec : forall e gs q w r ps, good_exec e ->
  matching_route e (registered e gs) q w = Done (Some (r, ps), None) ->
  exists b rest gr, longest_base e gs (uri q) b rest /\ matched e (expression r) rest gr /\ params_of rest gr ps.
Proof.
  intros e gs q w r ps G H. assert (NO : rmethod q <> bs "OPTIONS").
  { intros O. unfold matching_route in H. destruct (find_base _ _ _) as [[c m]|]; [|discriminate]. rewrite O, beq_refl in H. discriminate. }
  destruct (route_found e gs q w G NO) as [(b & rest & g & gr & ps' & L & F & M & P & E)|[N0 E]]; rewrite E in H; [|discriminate].
  injection H as <- <-. exists b, rest, gr. auto.
Qed.

Lemma route_total : forall e gs q w, good_exec e -> matching_route e (registered e gs) q w <> Bad.
Proof.
  intros e gs q w G. destruct (list_eq_dec N.eq_dec (rmethod q) (bs "OPTIONS")) as [O|O].
  - unfold matching_route. destruct (find_base _ _ _) as [[c m]|]; [|discriminate]. rewrite O, beq_refl. discriminate.
  - destruct (route_found e gs q w G O) as [(b & rest & g & gr & ps & _ & _ & _ & _ & ->)|[_ ->]]; discriminate.
Qed.
