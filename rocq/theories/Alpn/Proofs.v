From Coq Require Import List NArith ZArith Arith Bool Lia ZifyBool ZifyNat ZifyN.
From Verif Require Import Alpn.Model Alpn.Spec.
Import ListNotations.
Local Open Scope nat_scope.

Lemma same_eq : forall a b, same a b = true <-> a = b.
Proof.
  induction a as [|x a IH]; intros [|y b]; cbn; split; intro H; try discriminate; auto.
  - apply andb_true_iff in H. destruct H as [H1 H2]. apply N.eqb_eq in H1.
    apply IH in H2. congruence.
  - injection H as -> ->. rewrite N.eqb_refl. cbn. now apply IH.
Qed.

Lemma same_refl : forall a, same a a = true.
Proof. intro a. now apply same_eq. Qed.

Lemma wire_app : forall a b, wire (a ++ b) = wire a ++ wire b.
Proof. intros. apply flat_map_app. Qed.

Lemma wire_cons : forall p r, wire (p :: r) = N.of_nat (length p) :: p ++ wire r.
Proof. reflexivity. Qed.

Lemma at_here : forall a p b, at_ (wire (a ++ p :: b)) (length (wire a)) = length p.
Proof.
  intros. unfold at_. rewrite wire_app, app_nth2, Nat.sub_diag by lia.
  rewrite wire_cons. cbn [nth]. apply Nat2N.id.
Qed.

Lemma after_here : forall a p b,
  skipn (length (wire a) + 1) (wire (a ++ p :: b)) = p ++ wire b.
Proof.
  intros. rewrite wire_app, skipn_app.
  rewrite skipn_all2 by lia.
  replace (length (wire a) + 1 - length (wire a)) with 1 by lia.
  reflexivity.
Qed.

Lemma name_here : forall a p b,
  firstn (at_ (wire (a ++ p :: b)) (length (wire a)))
         (skipn (length (wire a) + 1) (wire (a ++ p :: b))) = p.
Proof.
  intros. rewrite at_here, after_here.
  rewrite firstn_app, Nat.sub_diag, firstn_all. cbn. apply app_nil_r.
Qed.

Lemma next_here : forall a p,
  length (wire (a ++ [p])) = length (wire a) + (length p + 1).
Proof.
  intros. rewrite wire_app, app_length, wire_cons. cbn [length wire flat_map].
  rewrite app_nil_r. lia.
Qed.

Definition olist (f : option func) : list func :=
  match f with Some g => [g] | None => [] end.

Lemma sel_spec : forall ps c a f fuel,
  length (wire ps) < fuel ->
  sel fuel c f (wire (a ++ ps)) (length (wire a)) =
  verdict (asked c (olist f) ps) (wire (a ++ ps)).
Proof.
  induction ps as [|p ps IH]; intros c a f fuel Hf.
  - destruct fuel as [|k]; [lia|]. cbn [sel asked verdict].
    rewrite app_nil_r, Nat.ltb_irrefl. reflexivity.
  - destruct fuel as [|k]; [lia|].
    assert (Hk : length (wire ps) < k).
    { rewrite wire_cons in Hf. cbn [length] in Hf. rewrite app_length in Hf. lia. }
    assert (L : length (wire a) < length (wire (a ++ p :: ps))).
    { rewrite wire_app, app_length, wire_cons. cbn [length]. lia. }
    apply Nat.ltb_lt in L. cbn [sel]. rewrite L, name_here, at_here.
    rewrite <- next_here.
    assert (E : a ++ p :: ps = (a ++ [p]) ++ ps) by (rewrite <- app_assoc; reflexivity).
    cbn [asked]. destruct (lookup c p) as [g|].
    + cbn [app verdict]. destruct (g (wire (a ++ p :: ps))) as [rv o] eqn:Eg.
      cbn [fst snd]. destruct (rv <? 0)%Z; auto. destruct (rv =? 1)%Z; auto.
      rewrite E, (IH c (a ++ [p]) (Some g) k Hk). reflexivity.
    + destruct f as [g|]; cbn [olist app verdict].
      * destruct (g (wire (a ++ p :: ps))) as [rv o] eqn:Eg.
        cbn [fst snd]. destruct (rv <? 0)%Z; auto. destruct (rv =? 1)%Z; auto.
        rewrite E, (IH c (a ++ [p]) (Some g) k Hk). reflexivity.
      * rewrite E, (IH c (a ++ [p]) None k Hk). reflexivity.
Qed.

Lemma select_spec : forall c ps, npn c <> None ->
  select c (wire ps) = verdict (asked c [] ps) (wire ps).
Proof.
  intros c ps H. unfold select. destruct (npn c); [|congruence].
  exact (sel_spec ps c [] None (S (length (wire ps))) ltac:(lia)).
Qed.

Lemma asked_known : forall c ps l g,
  In g (asked c l ps) -> In g l \/ exists p, In p ps /\ lookup c p = Some g.
Proof.
  induction ps as [|p ps IH]; intros l g H; cbn [asked] in H; [destruct H|].
  apply in_app_or in H. destruct (lookup c p) as [h|] eqn:E.
  - destruct H as [[<-|[]]|H]; [right; exists p; split; [now left|exact E]|].
    destruct (IH _ _ H) as [[<-|[]]|(q & Q1 & Q2)];
      right; [exists p; split; [now left|exact E]|exists q; split; [now right|exact Q2]].
  - destruct H as [H|H]; [now left|].
    destruct (IH _ _ H) as [K|(q & Q1 & Q2)]; [now left|].
    right. exists q. split; [now right|exact Q2].
Qed.

Lemma verdict_ok : forall fs inn o, verdict fs inn = Ok o ->
  exists f, In f fs /\ fst (f inn) = 1%Z /\ snd (f inn) = o.
Proof.
  induction fs as [|f fs IH]; intros inn o H; cbn [verdict] in H; [discriminate|].
  destruct (fst (f inn) <? 0)%Z; [discriminate|].
  destruct (fst (f inn) =? 1)%Z eqn:E.
  - injection H as <-. exists f. split; [now left|]. split; [lia|reflexivity].
  - destruct (IH _ _ H) as (g & G1 & G2). exists g. split; [now right|exact G2].
Qed.

(** * The functions of the library *)

Lemma always_first : forall p ps, always (wire (p :: ps)) = (1%Z, Some (1, length p)).
Proof. intros. unfold always.
  pose proof (at_here [] p ps) as E.
  change (at_ (wire (p :: ps)) 0 = length p) in E. now rewrite E. Qed.

Lemma always_honest : honest always.
Proof.
  intros [|p ps] _ Hn _; [congruence|]. rewrite always_first.
  exists (1, length p), p. split; [reflexivity|]. exists [], ps. repeat split.
Qed.

Lemma match_stop : forall fuel key inn i,
  same (firstn (length key mod 256) (skipn 1 inn)) (firstn (length key mod 256) key) = true ->
  match_from fuel key inn i = (0%Z, None).
Proof.
  induction fuel as [|k IH]; intros key inn i H; cbn [match_from]; [reflexivity|].
  rewrite H. cbn [negb]. rewrite andb_false_r.
  destruct (_ <? _); [apply IH, H|reflexivity].
Qed.

Definition none_long (k : nat) (ps : list (list N)) : Prop :=
  Forall (fun p => length p <> k) ps.

Lemma match_none : forall ps fuel key a,
  length key < 256 -> length (wire ps) < fuel -> none_long (length key) ps ->
  match_from fuel key (wire (a ++ ps)) (length (wire a)) = (0%Z, None).
Proof.
  induction ps as [|p ps IH]; intros fuel key a Hk Hf Hn.
  - destruct fuel as [|k]; [lia|]. cbn [match_from]. rewrite app_nil_r.
    destruct (_ <? _) eqn:L; [|reflexivity]. lia.
  - destruct fuel as [|k]; [lia|]. inversion Hn; subst.
    assert (Hw : length (wire ps) < k).
    { rewrite wire_cons in Hf. cbn [length] in Hf. rewrite app_length in Hf. lia. }
    cbn [match_from]. destruct (_ <? _); [|reflexivity].
    rewrite at_here, (Nat.mod_small (length key)) by lia.
    destruct (length p =? length key) eqn:E; [lia|]. cbn [andb].
    rewrite <- next_here.
    replace (a ++ p :: ps) with ((a ++ [p]) ++ ps) by (rewrite <- app_assoc; reflexivity).
    now apply IH.
Qed.

Lemma match_found : forall u fuel key a p v,
  length key < 256 -> length (wire (u ++ p :: v)) < fuel ->
  none_long (length key) u -> length p = length key ->
  firstn (length key) (skipn 1 (wire (a ++ u ++ p :: v))) <> key ->
  match_from fuel key (wire (a ++ u ++ p :: v)) (length (wire a)) =
    (1%Z, Some (length (wire (a ++ u)) + 1, length key)).
Proof.
  induction u as [|q u IH]; intros fuel key a p v Hk Hf Hn Hp Hd.
  - destruct fuel as [|k]; [lia|]. cbn [app] in *. cbn [match_from].
    rewrite at_here, (Nat.mod_small (length key)) by lia.
    assert (L : length (wire a) + length key < length (wire (a ++ p :: v))).
    { rewrite wire_app, app_length, wire_cons. cbn [length]. rewrite app_length. lia. }
    apply Nat.ltb_lt in L. rewrite L.
    rewrite Hp, Nat.eqb_refl, firstn_all. cbn [andb].
    destruct (same _ key) eqn:E; [apply same_eq in E; contradiction|].
    cbn [negb]. now rewrite app_nil_r.
  - destruct fuel as [|k]; [lia|]. inversion Hn; subst.
    assert (Hw : length (wire (u ++ p :: v)) < k).
    { cbn [app] in Hf. rewrite wire_cons in Hf. cbn [length] in Hf.
      rewrite app_length in Hf. lia. }
    cbn [app] in Hd |- *. cbn [match_from].
    rewrite at_here, (Nat.mod_small (length key)) by lia.
    assert (L : length (wire a) + length key < length (wire (a ++ q :: u ++ p :: v))).
    { rewrite wire_app, app_length, wire_cons. cbn [length].
      rewrite app_length, wire_app, app_length, wire_cons. cbn [length].
      rewrite app_length. lia. }
    apply Nat.ltb_lt in L. rewrite L.
    destruct (length q =? length key) eqn:E; [lia|]. cbn [andb].
    rewrite <- next_here.
    assert (Ea : a ++ q :: u ++ p :: v = (a ++ [q]) ++ u ++ p :: v)
      by (rewrite <- app_assoc; reflexivity).
    rewrite Ea in Hd |- *. rewrite IH; auto.
    now rewrite <- app_assoc.
Qed.

Lemma matcher_blind : forall key ps r,
  length key < 256 -> skipn 1 (wire ps) = key ++ r -> matcher key (wire ps) = (0%Z, None).
Proof.
  intros key ps r Hk E. unfold matcher. apply match_stop.
  rewrite E, Nat.mod_small by lia. rewrite firstn_app, Nat.sub_diag, firstn_all.
  cbn. rewrite app_nil_r. apply same_refl.
Qed.

Lemma matcher_none : forall key ps,
  length key < 256 -> none_long (length key) ps -> matcher key (wire ps) = (0%Z, None).
Proof.
  intros key ps Hk H.
  exact (match_none ps (S (length (wire ps))) key [] Hk ltac:(lia) H).
Qed.

Lemma matcher_wrong : forall key u p v,
  length key < 256 -> none_long (length key) u -> length p = length key ->
  (forall r, skipn 1 (wire (u ++ p :: v)) <> key ++ r) ->
  matcher key (wire (u ++ p :: v)) = (1%Z, Some (length (wire u) + 1, length key)).
Proof.
  intros key u p v Hk Hn Hp Hd.
  apply (match_found u (S (length (wire (u ++ p :: v)))) key [] p v); auto.
  cbn [app]. intro X. apply (Hd (skipn (length key) (skipn 1 (wire (u ++ p :: v))))).
  rewrite <- X at 1. symmetry. apply firstn_skipn.
Qed.

Lemma split_long : forall k ps, none_long k ps \/
  exists u p v, ps = u ++ p :: v /\ none_long k u /\ length p = k.
Proof.
  intros k. induction ps as [|p ps IH]; [left; constructor|].
  destruct (Nat.eq_dec (length p) k) as [E|E].
  - right. exists [], p, ps. repeat split; auto. constructor.
  - destruct IH as [IH|(u & q & v & -> & U & Q)]; [left; now constructor|].
    right. exists (p :: u), q, v. repeat split; auto. now constructor.
Qed.

Lemma matcher_honest : forall key, length key < 256 -> honest (matcher key).
Proof.
  intros key Hk ps _ _ H.
  destruct (list_eq_dec N.eq_dec (firstn (length key) (skipn 1 (wire ps))) key) as [E|E].
  - rewrite (matcher_blind key ps (skipn (length key) (skipn 1 (wire ps)))) in H;
      [discriminate|exact Hk|]. rewrite <- E at 1. symmetry. apply firstn_skipn.
  - destruct (split_long (length key) ps) as [Nl|(u & p & v & -> & U & P)].
    + rewrite matcher_none in H; auto. discriminate.
    + rewrite matcher_wrong; auto.
      * exists (length (wire u) + 1, length key), p. split; [reflexivity|].
        exists u, v. cbn. auto.
      * intros r R. apply E. rewrite R, firstn_app, Nat.sub_diag, firstn_all. cbn.
        apply app_nil_r.
Qed.
