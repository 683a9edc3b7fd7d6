From Coq Require Import List NArith ZArith Arith Bool Lia ZifyBool ZifyNat ZifyN.
From Verif Require Import Alpn.Model Alpn.Spec Alpn.Proofs.
Import ListNotations.
Local Open Scope nat_scope.

(** * Names in a string *)

Definition put (cur : list N) (ps : list (list N)) : list (list N) :=
  match ps with p :: r => (cur ++ p) :: r | [] => [cur] end.

Definition nonempty (p : list N) : bool := match p with [] => false | _ => true end.

Lemma pieces_some : forall s, exists p r, pieces s = p :: r.
Proof.
  induction s as [|x s (p & r & E)]; cbn; [eauto|].
  destruct (x =? 44)%N; [eauto|]. rewrite E. eauto.
Qed.

Lemma toks_pieces : forall s cur, toks s cur = filter nonempty (put cur (pieces s)).
Proof.
  induction s as [|x s IH]; intro cur; cbn [toks pieces].
  - cbn. rewrite app_nil_r. destruct cur; reflexivity.
  - destruct (x =? 44)%N.
    + rewrite IH. destruct (pieces_some s) as (p & r & ->). cbn.
      rewrite app_nil_r. destruct cur; reflexivity.
    + rewrite IH. destruct (pieces_some s) as (p & r & ->). cbn.
      rewrite <- app_assoc. reflexivity.
Qed.

Lemma toks_names : forall s, toks s [] = names s.
Proof.
  intro s. rewrite toks_pieces. unfold names. destruct (pieces_some s) as (p & r & ->).
  reflexivity.
Qed.

Lemma pieces_len : forall s, length (wire (pieces s)) = length s + 1.
Proof.
  induction s as [|x s IH]; [reflexivity|]. cbn [pieces].
  destruct (x =? 44)%N.
  - rewrite wire_cons. cbn [length app]. lia.
  - destruct (pieces_some s) as (p & r & E). rewrite E in *.
    rewrite wire_cons in IH |- *. cbn [length] in IH |- *.
    rewrite app_length in IH |- *. cbn [length]. lia.
Qed.

Lemma filter_len : forall f ps, length (wire (filter f ps)) <= length (wire ps).
Proof.
  intros f. induction ps as [|p ps IH]; [reflexivity|]. cbn [filter].
  destruct (f p); rewrite !wire_cons; cbn [length]; rewrite !app_length; lia.
Qed.

Lemma names_len : forall s, length (wire (names s)) <= length s + 1.
Proof. intro s. rewrite <- pieces_len. apply filter_len. Qed.

Lemma names_nonempty : forall s p, In p (names s) -> p <> [].
Proof. intros s p H. apply filter_In in H. destruct p; [easy|discriminate]. Qed.

Lemma sub_len : forall a l, sub a l -> length (wire a) <= length (wire l).
Proof.
  induction 1; [cbn; lia| |]; rewrite ?wire_cons; cbn [length]; rewrite ?app_length; lia.
Qed.

Lemma sub_in : forall a l, sub a l -> forall p, In p a -> In p l.
Proof.
  induction 1; intros p Hp; [destruct Hp| |right; auto].
  destruct Hp as [->|Hp]; [now left|right; auto].
Qed.

(** * What is advertised *)

Lemma adv_spec : forall c parts buf,
  length buf <= 254 ->
  exists ps, adv c parts buf = buf ++ wire ps /\ sub ps (filter (known c) parts) /\
    length (buf ++ wire ps) <= 254 /\
    (length buf + length (wire (filter (known c) parts)) <= 254 ->
     ps = filter (known c) parts) /\
    (ps = [] -> forall p, In p (filter (known c) parts) -> 254 < length buf + length p + 1).
Proof.
  intros c. induction parts as [|p parts IH]; intros buf Hb; cbn [adv filter].
  - exists []. cbn [wire flat_map]. rewrite app_nil_r. repeat split; auto; [constructor|].
    intros _ p [].
  - assert (K : known c p = match lookup c p with Some _ => true | None => false end)
      by reflexivity.
    destruct (lookup c p) as [g|]; rewrite K.
    + destruct (_ <? 255) eqn:L.
      * destruct (IH (buf ++ N.of_nat (length p) :: p)) as (ps & E & S & Le & F & _).
        { rewrite app_length. cbn [length]. lia. }
        exists (p :: ps). rewrite wire_cons, E, <- app_assoc. cbn [app].
        split; [reflexivity|]. split; [now constructor|].
        split; [rewrite <- app_assoc in Le; exact Le|]. split; [|discriminate].
        intro T. f_equal. apply F. rewrite app_length. cbn [length].
        rewrite wire_cons in T. cbn [length] in T. rewrite app_length in T. lia.
      * destruct (IH buf Hb) as (ps & E & S & Le & F & Z).
        exists ps. split; [exact E|]. split; [now constructor|]. split; [exact Le|].
        split.
        -- intro T. exfalso. rewrite wire_cons in T. cbn [length] in T.
           rewrite app_length in T. lia.
        -- intros P q [<-|Q]; [lia|auto].
    + destruct (IH buf Hb) as (ps & E & S & Le & F & Z). exists ps. auto.
Qed.

Lemma sub_filter_sub : forall a f l, sub a (filter f l) -> sub a l.
Proof.
  intros a f l. revert a. induction l as [|x l IH]; intros a H; cbn [filter] in H; auto.
  destruct (f x); [|constructor; auto].
  inversion H; subst; constructor; auto.
Qed.

Lemma npn_wire : forall ps, ps <> [] -> wire ps <> [].
Proof. intros [|p ps] H; [congruence|discriminate]. Qed.

Lemma advertise_spec : forall c s, exists ps,
  npn (advertise c (Some s)) = match ps with [] => None | _ => Some (wire ps) end /\
  sub ps (filter (known c) (names s)) /\
  length (wire ps) <= 254 /\ length (wire ps) <= length s + 1 /\
  (length (wire (filter (known c) (names s))) <= 254 ->
   ps = filter (known c) (names s)) /\
  (ps = [] -> forall p, In p (names s) -> known c p = true -> 254 <= length p).
Proof.
  intros c s. destruct (adv_spec c (toks s []) []) as (ps & E & S & Le & F & Z); [cbn; lia|].
  rewrite toks_names in *. exists ps. cbn [app] in *. split; [|split; [exact S|]].
  - unfold advertise. cbn [npn]. rewrite toks_names, E. destruct ps; reflexivity.
  - split; [exact Le|]. split.
    + etransitivity; [eapply sub_len, sub_filter_sub, S|apply names_len].
    + split; [exact F|]. intros P p I1 I2. specialize (Z P p).
      cbn [length] in Z. rewrite filter_In in Z. specialize (Z (conj I1 I2)). lia.
Qed.

(** * Registering *)

Lemma lookup_register : forall c name f p,
  lookup (register c name f) p =
  match retrieve (own c) p with
  | Some g => Some g
  | None => if same name p then Some (match f with Some g => g | None => always end)
            else lookup c p
  end.
Proof.
  intros. unfold lookup, register. cbn [own shared retrieve].
  destruct (retrieve (own c) p); auto.
Qed.

Lemma lookup_ctx_register : forall c name f p,
  lookup (ctx_register c name f) p =
  if same name p then Some (match f with Some g => g | None => always end)
  else lookup c p.
Proof.
  intros. unfold lookup, ctx_register. cbn [own shared retrieve].
  destruct (same name p); auto.
Qed.

Lemma lookup_advertise : forall c s p, lookup (advertise c s) p = lookup c p.
Proof. reflexivity. Qed.

Lemma asked_advertise : forall c s ps l, asked (advertise c s) l ps = asked c l ps.
Proof.
  intros c s. induction ps as [|p ps IH]; intro l; cbn [asked]; auto.
  rewrite lookup_advertise. now rewrite IH.
Qed.

(** * Choosing *)

Lemma select_offered : forall c ps o,
  valid ps -> (forall p f, In p ps -> lookup c p = Some f -> honest f) ->
  select c (wire ps) = Ok o ->
  exists x p, o = Some x /\ picks ps x p.
Proof.
  intros c ps o V H E. assert (Hn : npn c <> None).
  { intro X. unfold select in E. rewrite X in E. discriminate. }
  rewrite select_spec in E by exact Hn.
  destruct (verdict_ok _ _ _ E) as (f & F1 & F2 & F3).
  destruct (asked_known _ _ _ _ F1) as [[]|(q & Q1 & Q2)].
  assert (Ne : ps <> []) by (intro X; subst; destruct Q1).
  destruct (H q f Q1 Q2 ps V Ne F2) as (x & p & X & P). exists x, p. split; [congruence|auto].
Qed.

Lemma select_always : forall c p ps,
  npn c <> None -> (forall q f, lookup c q = Some f -> f = always) ->
  select c (wire (p :: ps)) =
  if existsb (known c) (p :: ps) then Ok (Some (1, length p)) else NoAck.
Proof.
  intros c p ps Hn A. rewrite select_spec by exact Hn.
  assert (V : forall l r, l = always :: r ->
              verdict l (wire (p :: ps)) = Ok (Some (1, length p))).
  { intros l r ->. cbn [verdict]. now rewrite always_first. }
  assert (G : forall qs, (existsb (known c) qs = true /\ exists r, asked c [] qs = always :: r) \/
                         (existsb (known c) qs = false /\ asked c [] qs = [])).
  { induction qs as [|q qs IH]; [right; now split|].
    cbn [existsb asked]. unfold known at 1 3.
    destruct (lookup c q) as [f|] eqn:E.
    - rewrite (A _ _ E). left. split; auto. cbn. eauto.
    - cbn [orb app]. exact IH. }
  destruct (G (p :: ps)) as [[-> [r R]]|[-> R]]; [now apply (V _ r)|now rewrite R].
Qed.

Lemma next_first : forall c s p ps,
  npn (advertise c (Some s)) = Some (wire (p :: ps)) ->
  next_proto (advertise c (Some s)) = Some (wire [p]).
Proof.
  intros c s p ps E. unfold next_proto. rewrite E. f_equal.
  pose proof (at_here [] p ps) as L. change (at_ (wire (p :: ps)) 0 = length p) in L.
  rewrite L, !wire_cons. cbn [Nat.add firstn wire flat_map]. rewrite app_nil_r.
  rewrite firstn_app, Nat.sub_diag, firstn_all. cbn. now rewrite app_nil_r.
Qed.
