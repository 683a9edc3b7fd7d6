From Coq Require Import NArith ZArith List Bool String Lia ZifyBool ZifyNat ZifyN.
From Verif.Url Require Model Spec Proofs.
From Verif.Cookie Require Import Model Spec Proofs.
Import ListNotations.
Local Open Scope string_scope.
Local Open Scope list_scope.
Local Open Scope nat_scope.

(** ** Checking *)
Lemma copy_ok : forall n p, List.length p < n -> copy n p = Done (cstr p).
Proof. intros n p L. unfold copy. destruct (Nat.leb_spec n (List.length p)); [lia|reflexivity]. Qed.

Lemma front_exact : forall (s x : bytes), firstn (List.length (s ++ x) - List.length x) (s ++ x) = s.
Proof.
  intros s x. rewrite app_length. replace (List.length s + List.length x - List.length x) with (List.length s) by lia.
  rewrite firstn_app, Nat.sub_diag, firstn_all, firstn_O, app_nil_r. reflexivity.
Qed.

(** the parts of a text before what follows them *)
Lemma check_parts : forall hmac now nonce u a t s x,
  parts [COOKIE_HEADER; nonce; u; a; t] s ->
  check hmac now (s ++ x) =
    (if (0 <? now)%Z && (now <? strtoull (cstr t))%Z then
       match advpart x with
       | None => Done None
       | Some (sg, _) =>
           match signit hmac s 256 with
           | Some sig => if (List.length sig =? List.length sg) && beq sig sg
                         then Done (Some (cstr u, cstr a)) else Done None
           | None => Done None
           end
       end
     else Done None).
Proof.
  intros hmac now nonce u a t s x P.
  assert (F : forall r, List.length (s ++ x) - List.length r = List.length (s ++ x) - List.length x -> r = x ->
    firstn (List.length (s ++ x) - List.length r) (s ++ x) = s) by (intros r _ ->; apply front_exact).
  pose proof (front_exact s x) as Fr. remember (s ++ x) as y eqn:Y.
  apply parts_inv in P as (t1 & L1 & P & ->). apply parts_inv in P as (t2 & L2 & P & ->).
  apply parts_inv in P as (t3 & L3 & P & ->). apply parts_inv in P as (t4 & L4 & P & ->).
  apply parts_inv in P as (t5 & L5 & P & ->). apply parts_inv in P as ->.
  assert (E : y = N.of_nat (List.length COOKIE_HEADER) :: COOKIE_HEADER ++ N.of_nat (List.length nonce) :: nonce ++
    N.of_nat (List.length u) :: u ++ N.of_nat (List.length a) :: a ++ N.of_nat (List.length t) :: t ++ x).
  { rewrite Y. rewrite app_nil_r. repeat (rewrite <- app_comm_cons || rewrite <- app_assoc). reflexivity. }
  clear Y F. unfold check. rewrite E at 1. rewrite adv_cons, beq_refl. cbn [negb].
  rewrite adv_cons, adv_cons, copy_ok by lia. cbn [bind]. rewrite adv_cons, copy_ok by lia. cbn [bind].
  rewrite adv_cons, copy_ok by lia. cbn [bind]. rewrite Fr. reflexivity.
Qed.

Lemma adv_parts : forall l p r, octets l -> advpart l = Some (p, r) -> List.length p < 256 /\ octets r.
Proof.
  intros l p r O E. apply adv_inv in E as ->. inversion O as [|? ? H1 H2]; subst. apply Forall_app in H2 as [_ H2].
  split; [lia|exact H2].
Qed.
Lemma check_inv : forall hmac now l u a, octets l -> check hmac now l = Done (Some (u, a)) ->
  exists nonce U A T s x sg y, parts [COOKIE_HEADER; nonce; U; A; T] s /\ l = s ++ x /\ u = cstr U /\ a = cstr A /\
    advpart x = Some (sg, y) /\ signit hmac s 256 = Some sg /\ (0 < now < strtoull (cstr T))%Z.
Proof.
  intros hmac now l u a O H. unfold check in H.
  destruct (advpart l) as [[h l1]|] eqn:E1; [|discriminate].
  destruct (beq h COOKIE_HEADER) eqn:B; [|discriminate]. apply beq_eq in B. subst h. cbn [negb] in H.
  destruct (advpart l1) as [[nonce l2]|] eqn:E2; [|discriminate].
  destruct (advpart l2) as [[U l3]|] eqn:E3; [|discriminate].
  destruct (adv_parts _ _ _ O E1) as [L1 O1]. destruct (adv_parts _ _ _ O1 E2) as [L2 O2].
  destruct (adv_parts _ _ _ O2 E3) as [L3 O3].
  rewrite copy_ok in H by lia. cbn [bind] in H.
  destruct (advpart l3) as [[A l4]|] eqn:E4; [|discriminate]. destruct (adv_parts _ _ _ O3 E4) as [L4 O4].
  rewrite copy_ok in H by lia. cbn [bind] in H.
  destruct (advpart l4) as [[T l5]|] eqn:E5; [|discriminate]. destruct (adv_parts _ _ _ O4 E5) as [L5 O5].
  rewrite copy_ok in H by lia. cbn [bind] in H.
  destruct ((0 <? now)%Z && (now <? strtoull (cstr T))%Z) eqn:Tm; [|discriminate].
  destruct (advpart l5) as [[sg y]|] eqn:E6; [|discriminate].
  exists nonce, U, A, T, (part COOKIE_HEADER ++ part nonce ++ part U ++ part A ++ part T), l5, sg, y.
  assert (El : l = (part COOKIE_HEADER ++ part nonce ++ part U ++ part A ++ part T) ++ l5).
  { rewrite !part_small by auto. apply adv_inv in E1, E2, E3, E4, E5. rewrite E1, E2, E3, E4, E5.
    repeat (rewrite <- app_comm_cons || rewrite <- app_assoc). reflexivity. }
  rewrite El, front_exact in H.
  destruct (signit hmac _ 256) as [sig|] eqn:Sg; [|discriminate].
  destruct ((List.length sig =? List.length sg) && beq sig sg) eqn:Q; [|discriminate].
  apply andb_true_iff in Q as [_ Q]. apply beq_eq in Q. subst sig. injection H as <- <-.
  split; [apply five_parts; auto|]. split; [exact El|]. repeat split; auto; lia.
Qed.

(** never outside *)
Lemma check_safe : forall hmac now l, octets l -> check hmac now l <> Bad.
Proof.
  intros hmac now l O. unfold check.
  destruct (advpart l) as [[h l1]|] eqn:E1; [|discriminate].
  destruct (beq h COOKIE_HEADER) eqn:B; [|discriminate]. cbn [negb].
  destruct (advpart l1) as [[nonce l2]|] eqn:E2; [|discriminate].
  destruct (advpart l2) as [[U l3]|] eqn:E3; [|discriminate].
  destruct (adv_parts _ _ _ O E1) as [L1 O1]. destruct (adv_parts _ _ _ O1 E2) as [L2 O2].
  destruct (adv_parts _ _ _ O2 E3) as [L3 O3]. rewrite copy_ok by lia. cbn [bind].
  destruct (advpart l3) as [[A l4]|] eqn:E4; [|discriminate]. destruct (adv_parts _ _ _ O3 E4) as [L4 O4].
  rewrite copy_ok by lia. cbn [bind].
  destruct (advpart l4) as [[T l5]|] eqn:E5; [|discriminate]. destruct (adv_parts _ _ _ O4 E5) as [L5 O5].
  rewrite copy_ok by lia. cbn [bind].
  destruct (_ && _); [|discriminate]. destruct (advpart l5) as [[sg y]|]; [|discriminate].
  destruct (signit _ _ _); [|discriminate]. destruct (_ && _); discriminate.
Qed.
Lemma decode_part_octets : forall p, octets (decode_part p).
Proof.
  intro p. unfold decode_part. destruct (decode_cases p (Z.of_nat (List.length p) + 1)
    (Url.Model.url_max_decode_len (Z.of_nat (List.length p)))) as [E|E].
  - right. lia. - unfold Url.Model.url_max_decode_len. lia.
  - rewrite E. constructor. - apply pct_octets in E. exact E.
Qed.
Lemma decode_part_ok : forall p d, Url.Spec.pct_decodes p d -> decode_part p = d.
Proof. intros p d D. apply decode_ok; auto; unfold Url.Model.url_max_decode_len; [right|]; lia. Qed.
Lemma decode_part_cases : forall p, decode_part p = [] \/ Url.Spec.pct_decodes p (decode_part p).
Proof. intro p. apply decode_cases; unfold Url.Model.url_max_decode_len; [right|]; lia. Qed.
Lemma complete_safe : forall hmac now c, request_complete hmac now c <> Bad.
Proof.
  intros hmac now [c|]; [|discriminate]. cbn [request_complete]. generalize (strtok (bs " ;") c []). intro l.
  induction l as [|p l IH]; [discriminate|]. cbn [pieces]. destruct (starts _ p); auto.
  apply check_safe. apply decode_part_octets.
Qed.

(** ** The pieces of the header *)
Lemma existsb_sep : forall x, existsb (N.eqb x) (bs " ;") = true <-> x = 32%N \/ x = 59%N.
Proof. intro x. change (bs " ;") with [32; 59]%N. cbn [existsb]. lia. Qed.
Lemma strtok_run : forall d p r acc, (forall x, In x p -> existsb (N.eqb x) d = false) ->
  strtok d (p ++ r) acc = strtok d r (acc ++ p).
Proof.
  intros d. induction p as [|x p IH]; intros r acc H; [rewrite app_nil_r; reflexivity|].
  cbn [app strtok]. rewrite H by (left; reflexivity). rewrite IH by (intros; apply H; right; auto).
  rewrite <- app_assoc. reflexivity.
Qed.
Lemma pair_sep : forall p, pair p -> forall x, In x p -> existsb (N.eqb x) (bs " ;") = false.
Proof.
  intros p (_ & N1 & N2) x I. destruct (existsb _ _) eqn:E; auto. apply existsb_sep in E as [-> | ->]; contradiction.
Qed.
Lemma strtok_cookies : forall ps t, cookies ps t -> Forall pair ps -> strtok (bs " ;") t [] = ps.
Proof.
  intros ps t C. induction C as [p|p ps t C IH]; intro F; inversion F as [|? ? Pp F']; subst.
  - rewrite <- (app_nil_r p) at 1. rewrite strtok_run by (apply pair_sep; auto). cbn.
    destruct Pp as [N _]. destruct p; [congruence|reflexivity].
  - rewrite strtok_run by (apply pair_sep; auto). cbn [app]. destruct Pp as [N _].
    destruct p as [|x p]; [congruence|]. change (strtok (bs " ;") (59%N :: 32%N :: t) (x :: p))
      with ((x :: p) :: strtok (bs " ;") t []). rewrite IH; auto.
Qed.
Lemma strtok_in : forall d l acc p, In p (strtok d l acc) -> exists a b, acc ++ l = a ++ p ++ b.
Proof.
  intros d. induction l as [|x l IH]; intros acc p I; cbn in I.
  - destruct acc; [destruct I|]. destruct I as [<-|[]]. exists [], []. rewrite !app_nil_r. reflexivity.
  - destruct (existsb _ d).
    + assert (K : In p (acc :: strtok d l []) -> exists a b, acc ++ x :: l = a ++ p ++ b).
      { intros [<-|J]; [exists [], (x :: l); reflexivity|]. apply IH in J as (a & b & E). cbn in E.
        exists (acc ++ x :: a), b. rewrite E. rewrite <- app_assoc. reflexivity. }
      destruct acc as [|y acc]; [apply K; right; exact I|apply K; exact I].
    + apply IH in I as (a & b & E). exists a, b. rewrite <- E, <- app_assoc. reflexivity.
Qed.
Lemma pieces_skip : forall hmac now before l, Forall (fun p => ~ ours p) before ->
  pieces hmac now (before ++ l) = pieces hmac now l.
Proof.
  intros hmac now before l F. induction F as [|p before N F IH]; auto. cbn [app pieces].
  destruct (starts (bs "mtevauth=") p) eqn:E; auto. apply starts_iff in E as [r ->]. destruct N. exists r. reflexivity.
Qed.
Lemma pieces_inv : forall hmac now l who, pieces hmac now l = Done (Some who) ->
  exists v, In (bs "mtevauth=" ++ v) l /\ check hmac now (decode_part v) = Done (Some who).
Proof.
  intros hmac now. induction l as [|p l IH]; intros who H; [discriminate|]. cbn [pieces] in H.
  destruct (starts (bs "mtevauth=") p) eqn:E.
  - apply starts_iff in E as [v ->]. exists v. split; [left; reflexivity|exact H].
  - apply IH in H as (v & I & C). exists v. split; [right|]; auto.
Qed.

(** ** Issuing *)
Lemma signed_length : forall nonce u a e, List.length nonce = NONCE_LEN -> List.length (signed nonce u a e) <= 576.
Proof.
  intros nonce u a e L. unfold signed. rewrite !app_length.
  destruct (part_any nonce) as (p1 & E1 & _ & ->). destruct (part_any u) as (p2 & _ & L2 & ->).
  destruct (part_any a) as (p3 & _ & L3 & ->). destruct (part_any (print e)) as (p4 & E4 & _ & ->).
  change (List.length (part COOKIE_HEADER)) with 12. cbn [List.length].
  assert (List.length p1 <= 8) by (subst p1; rewrite firstn_length; unfold NONCE_LEN in L; lia).
  assert (List.length p4 <= 20) by (subst p4; pose proof (print_short e); rewrite firstn_length; lia).
  lia.
Qed.
Lemma part_octets : forall l, octets l -> octets (part l).
Proof.
  intros l O. destruct (part_any l) as (p & E & L & ->). constructor; [lia|]. subst p. clear L.
  apply Forall_forall. intros x I. unfold octets in O. rewrite Forall_forall in O. apply O.
  rewrite <- (firstn_skipn (List.length l mod 256) l). apply in_or_app. auto.
Qed.
Lemma decimal_octets : forall fuel n, octets (decimal fuel n).
Proof.
  induction fuel as [|fuel IH]; intro n; cbn [decimal]; [constructor|]. apply Forall_app. split.
  - destruct (n <? 10)%N; [constructor|apply IH].
  - constructor; [|constructor]. pose proof (N.mod_lt n 10 ltac:(lia)). lia.
Qed.
Lemma signed_octets : forall nonce u a e, octets nonce -> octets u -> octets a -> octets (signed nonce u a e).
Proof.
  intros. unfold signed. repeat (apply Forall_app; split); apply part_octets; auto; [|apply decimal_octets].
  vm_compute. repeat constructor.
Qed.
Lemma sign32 : forall hmac s, mac32 hmac -> signit hmac s 256 = Some (hmac s).
Proof. intros hmac s M. unfold signit. destruct (M s) as [-> _]. reflexivity. Qed.
Lemma cookie_text_ok : forall hmac s, mac32 hmac -> octets s -> List.length s <= 576 ->
  exists c, cookie_text hmac s = Done (Some c) /\ Url.Spec.pct_encodes (s ++ 32%N :: hmac s) c.
Proof.
  intros hmac s M O L. unfold cookie_text.
  assert (St : static_size = Z.to_nat 4096) by reflexivity.
  destruct (Nat.ltb_spec static_size (List.length s + 1 + 256)); [lia|]. rewrite sign32 by auto.
  destruct (M s) as [Lm Om]. rewrite Lm. change (N.of_nat (32 mod 256)) with 32%N.
  match goal with |- context [url_encode _ ?d] => destruct (encode_ok (s ++ 32%N :: hmac s) d) as (t & P & E) end.
  - apply Forall_app. split; auto. constructor; [lia|exact Om].
  - destruct s; discriminate.
  - unfold Url.Model.url_encode_len. rewrite app_length. cbn [List.length]. rewrite Lm.
    rewrite St. match goal with |- context [if ?b then _ else _] => destruct b end; lia.
  - rewrite E. eauto.
Qed.
Lemma refresh_ok : forall hmac now age d h nonce u a, mac32 hmac -> List.length nonce = NONCE_LEN -> octets nonce ->
  octets u -> octets a ->
  exists c, refresh hmac now age d h nonce (Some (u, a)) = Done (Some (bs "mtevauth=" ++ c ++ bs "; Max-Age=" ++ print age ++ domain_text d h))
    /\ Url.Spec.pct_encodes (signed nonce u a (now + age) ++ 32%N :: hmac (signed nonce u a (now + age))) c.
Proof.
  intros hmac now age d h nonce u a M Ln On Ou Oa. cbn [refresh].
  destruct (cookie_text_ok hmac (signed nonce u a (now + age)) M) as (c & E & P).
  - apply signed_octets; auto. - apply signed_length; auto.
  - exists c. rewrite E. cbn [bind]. auto.
Qed.
Lemma refresh_safe : forall hmac now age d h nonce who, List.length nonce = NONCE_LEN ->
  refresh hmac now age d h nonce who <> Bad.
Proof.
  intros hmac now age d h nonce [[u a]|] L; [|discriminate]. cbn [refresh]. unfold cookie_text.
  pose proof (signed_length nonce u a (now + age) L) as Q. assert (St : static_size = Z.to_nat 4096) by reflexivity.
  destruct (Nat.ltb_spec static_size (List.length (signed nonce u a (now + age)) + 1 + 256)); [lia|].
  destruct (signit _ _ _); cbn [bind]; [|discriminate]. destruct (url_encode _ _); discriminate.
Qed.

(** ** Round trip *)
Lemma done_some : forall A (x y : A), Done (Some x) = Done (Some y) -> x = y.
Proof. intros A x y H. injection H as H. exact H. Qed.
Lemma check_signed : forall hmac now nonce u a e junk, mac32 hmac -> List.length nonce = NONCE_LEN ->
  List.length u < 256 -> List.length a < 256 -> clean u -> clean a -> (e < 2 ^ 64)%N ->
  check hmac now (signed nonce u a e ++ 32%N :: hmac (signed nonce u a e) ++ junk) =
  Done (if (0 <? now)%Z && (now <? Z.of_N e)%Z then Some (u, a) else None).
Proof.
  intros hmac now nonce u a e junk M Ln Lu La Cu Ca Le.
  assert (P : parts [COOKIE_HEADER; nonce; u; a; print e] (signed nonce u a e)).
  { apply signed_parts; auto. unfold NONCE_LEN in Ln. lia. }
  rewrite (check_parts _ _ _ _ _ _ _ _ P). rewrite (cstr_clean u), (cstr_clean a) by auto.
  pose proof (print_number e Le) as Np. rewrite (cstr_clean (print e)) by (apply (number_octets _ _ Np)).
  rewrite (strtoull_number _ _ Np) by (clear - Le; lia).
  destruct ((0 <? now)%Z && (now <? Z.of_N e)%Z); [|reflexivity].
  assert (Ad : advpart (32%N :: hmac (signed nonce u a e) ++ junk) = Some (hmac (signed nonce u a e), junk)).
  { replace 32%N with (N.of_nat (List.length (hmac (signed nonce u a e)))) by (destruct (M (signed nonce u a e)) as [-> _]; reflexivity).
    apply adv_cons. }
  rewrite Ad, sign32 by auto. rewrite Nat.eqb_refl, beq_refl. reflexivity.
Qed.
Lemma pct_pair : forall l c, Url.Spec.pct_encodes l c -> octets l -> pair (bs "mtevauth=" ++ c).
Proof.
  intros l c P O. pose proof (pct_chars _ _ P O) as F. rewrite Forall_forall in F. split; [discriminate|].
  assert (K : forall x, (x = 32 \/ x = 59)%N -> ~ In x (bs "mtevauth=" ++ c)).
  { intros x Hx I. apply in_app_or in I as [I|I].
    - vm_compute in I. repeat (destruct I as [I|I]; [lia|]). destruct I.
    - apply F in I. unfold Url.Spec.unreserved in I. lia. }
  split; apply K; auto.
Qed.
Lemma round_trip : forall hmac now t age d h nonce u a before after c header,
  mac32 hmac -> List.length nonce = NONCE_LEN -> octets nonce -> octets u -> octets a ->
  List.length u < 256 -> List.length a < 256 -> clean u -> clean a -> (t + age < 2 ^ 64)%N ->
  refresh hmac t age d h nonce (Some (u, a)) =
    Done (Some (bs "mtevauth=" ++ c ++ bs "; Max-Age=" ++ print age ++ domain_text d h)) ->
  Forall (fun p => pair p /\ ~ ours p) before -> Forall pair after ->
  cookies (before ++ (bs "mtevauth=" ++ c) :: after) header ->
  request_complete hmac now (Some header) =
    Done (if (0 <? now)%Z && (now <? Z.of_N (t + age))%Z then Some (u, a) else None).
Proof.
  intros hmac now t age d h nonce u a before after c header M Ln On Ou Oa Lu La Cu Ca Le R Fb Fa C.
  destruct (refresh_ok hmac t age d h nonce u a M Ln On Ou Oa) as (c' & R' & P).
  rewrite R' in R. assert (c' = c).
  { apply done_some in R. apply app_inv_head, app_inv_tail in R. exact R. }
  subst c'. clear R R'.
  assert (Os : octets (signed nonce u a (t + age) ++ 32%N :: hmac (signed nonce u a (t + age)))).
  { apply Forall_app. split; [apply signed_octets; auto|]. constructor; [lia|apply M]. }
  cbn [request_complete]. rewrite (strtok_cookies _ _ C).
  - rewrite pieces_skip; [|eapply Forall_impl; [|exact Fb]; cbn; tauto].
    cbn [pieces]. assert (X : starts (bs "mtevauth=") (bs "mtevauth=" ++ c) = true) by (apply starts_iff; eauto).
    rewrite X. change (skipn 9 (bs "mtevauth=" ++ c)) with c.
    rewrite (decode_part_ok c _ (Url.Proofs.encodes_decodes _ _ Os P)).
    pose proof (check_signed hmac now nonce u a (t + age) [] M Ln Lu La Cu Ca Le) as K. rewrite app_nil_r in K. exact K.
  - apply Forall_app. split; [eapply Forall_impl; [|exact Fb]; cbn; tauto|]. constructor; auto. eapply pct_pair; eauto.
Qed.

(** ** Only signed cookies *)
Lemma accepted : forall hmac now header u a, mac32 hmac -> request_complete hmac now (Some header) = Done (Some (u, a)) ->
  exists v payload nonce U A T s, (exists x y, header = x ++ bs "mtevauth=" ++ v ++ y) /\ Url.Spec.pct_decodes v payload /\
    bears hmac payload s /\ parts [COOKIE_HEADER; nonce; U; A; T] s /\ c_string U u /\ c_string A a /\
    exists E, c_string T E /\ (0 < now < strtoull E)%Z.
Proof.
  intros hmac now header u a M H. cbn [request_complete] in H. apply pieces_inv in H as (v & I & H).
  apply strtok_in in I as (x & y & I). cbn [app] in I.
  pose proof (decode_part_octets v) as O.
  destruct (check_inv _ _ _ _ _ O H) as (nonce & U & A & T & s & r & sg & z & P & E & -> & -> & Ad & Sg & Tm).
  exists v, (decode_part v), nonce, U, A, T, s. split; [exists x, y; rewrite I, <- app_assoc; reflexivity|].
  split.
  { destruct (decode_part_cases v) as [Q|Q]; auto. rewrite Q in H. cbn in H. discriminate. }
  rewrite sign32 in Sg by auto. injection Sg as <-. apply adv_inv in Ad.
  split; [exists z; rewrite E, Ad; reflexivity|]. split; [exact P|]. split; [apply cstr_c|]. split; [apply cstr_c|].
  exists (cstr T). split; [apply cstr_c|exact Tm].
Qed.
Lemma c_string_clean : forall l u, c_string l u -> clean l -> u = l.
Proof. intros l u H C. destruct H as [|a b]; auto. exfalso. apply C. apply in_or_app. right. left. reflexivity. Qed.
Lemma unforgeable : forall hmac now header u a (issued : list (bytes * bytes * bytes * N)), mac32 hmac ->
  Forall (fun i => let '(n, u, a, e) := i in List.length n = NONCE_LEN /\ List.length u < 256 /\ clean u /\
                   List.length a < 256 /\ clean a /\ (e < 2 ^ 64)%N) issued ->
  (forall v payload s, (exists x y, header = x ++ v ++ y) -> Url.Spec.pct_decodes v payload -> bears hmac payload s ->
     exists n u a e, In (n, u, a, e) issued /\ s = signed n u a e) ->
  request_complete hmac now (Some header) = Done (Some (u, a)) ->
  exists n e, In (n, u, a, e) issued /\ (0 < now < Z.of_N e)%Z.
Proof.
  intros hmac now header u a issued M F Unf H.
  destruct (accepted _ _ _ _ _ M H) as (v & payload & nonce & U & A & T & s & (x & y & Hd) & Pd & B & P & Cu & Ca & E & Ct & Tm).
  destruct (Unf v payload s) as (n & u' & a' & e & I & ->); auto.
  { exists (x ++ bs "mtevauth="), y. rewrite Hd, <- app_assoc. reflexivity. }
  rewrite Forall_forall in F. specialize (F _ I). cbn in F. destruct F as (Ln & Lu & Clu & La & Cla & Le).
  assert (P' : parts [COOKIE_HEADER; n; u'; a'; print e] (signed n u' a' e)).
  { apply signed_parts; auto. unfold NONCE_LEN in Ln. lia. }
  pose proof (parts_fun _ _ P _ P') as Q. injection Q as -> -> -> Q.
  rewrite (c_string_clean _ _ Cu Clu), (c_string_clean _ _ Ca Cla). exists n, e. split; auto.
  pose proof (print_number e Le) as Np. rewrite Q in Ct. destruct (number_octets _ _ Np) as [_ Cp].
  rewrite (c_string_clean _ _ Ct Cp), (strtoull_number _ _ Np) in Tm by (clear - Le; lia). exact Tm.
Qed.

(** ** Long names *)
Lemma part_long : forall v w, List.length v < 256 -> List.length w = 256 -> part (v ++ w) = part v.
Proof.
  intros v w L W. unfold part. rewrite app_length, W. replace (List.length v + 256) with (List.length v + 1 * 256) by lia.
  rewrite Nat.mod_add by lia. rewrite Nat.mod_small by auto. rewrite firstn_app, Nat.sub_diag, firstn_O, app_nil_r.
  reflexivity.
Qed.
Lemma long_user : forall hmac t age d h nonce v w a, List.length v < 256 -> List.length w = 256 ->
  refresh hmac t age d h nonce (Some (v ++ w, a)) = refresh hmac t age d h nonce (Some (v, a)).
Proof. intros. cbn [refresh]. unfold signed. rewrite part_long by auto. reflexivity. Qed.
