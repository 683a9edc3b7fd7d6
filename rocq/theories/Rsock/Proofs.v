From Coq Require Import List NArith Arith Bool Lia ZifyBool ZifyNat ZifyN.
From Verif Require Import Rsock.Model Rsock.Spec.
Import ListNotations.
Local Open Scope N_scope.

(** * Bytes and headers *)

Lemma same_eq : forall a b, same a b = true <-> a = b.
Proof.
  induction a as [|x a IH]; intros [|y b]; cbn; split; intro H; try discriminate; auto.
  - apply andb_prop in H. destruct H as [H1 H2]. apply N.eqb_eq in H1.
    apply IH in H2. congruence.
  - injection H as -> ->. rewrite N.eqb_refl. cbn. now apply IH.
Qed.

Lemma ifcmd_iff : forall c d s, ifcmd c d s = true <-> c = true /\ d = s.
Proof.
  intros. unfold ifcmd. rewrite andb_true_iff, same_eq. tauto.
Qed.

Lemma is_cmdb_iff : forall f s, is_cmdb f s = true <-> is_cmd f s.
Proof.
  intros. unfold is_cmdb, is_cmd. rewrite andb_true_iff.
  destruct (list_eq_dec N.eq_dec (fdat f) s); intuition congruence.
Qed.

Lemma ifcmd_is_cmdb : forall c ch d s, ifcmd c d s = is_cmdb (Fr c ch d) s.
Proof.
  intros. apply eq_true_iff_eq. rewrite ifcmd_iff, is_cmdb_iff. reflexivity.
Qed.

Lemma land15 : forall id, id < 65536 -> (N.land id 32768 =? 0) = (id <? 32768).
Proof.
  intros id H.
  assert (E : N.land id 32768 = if N.testbit id 15 then 32768 else 0).
  { apply N.bits_inj. intro i. rewrite N.land_spec.
    change 32768 with (2 ^ 15). rewrite N.pow2_bits_eqb.
    destruct (15 =? i) eqn:Ei.
    - apply N.eqb_eq in Ei. subst i. destruct (N.testbit id 15).
      + now rewrite N.pow2_bits_true.
      + now rewrite N.bits_0.
    - rewrite andb_false_r. destruct (N.testbit id 15).
      + rewrite N.pow2_bits_eqb, Ei. reflexivity.
      + now rewrite N.bits_0. }
  rewrite E. pose proof (N.testbit_spec' id 15) as T.
  change (2 ^ 15) with 32768 in T.
  destruct (N.testbit id 15); cbn [N.b2n] in T.
  - assert (id / 32768 <> 0) by (intro Z; rewrite Z in T; discriminate).
    assert (~ id < 32768) by (intro L; rewrite N.div_small in H0; lia).
    symmetry. cbn. lia.
  - destruct (id <? 32768) eqn:L; auto. exfalso.
    assert (id / 32768 = 1).
    { symmetry. apply (N.div_unique id 32768 1 (id - 32768)); lia. }
    rewrite H0 in T. discriminate.
Qed.

Lemma land_low : forall id, N.land id 32767 = id mod 32768.
Proof. intro. change 32767 with (N.ones 15). now rewrite N.land_ones. Qed.

Lemma lor_top : forall c, c < 512 -> N.lor c 32768 = 32768 + c.
Proof.
  intros c H.
  assert (F : forallb (fun i => N.lor (N.of_nat i) 32768 =? 32768 + N.of_nat i)
                      (seq 0 512) = true) by (vm_compute; reflexivity).
  rewrite forallb_forall in F.
  specialize (F (N.to_nat c)). rewrite N2Nat.id in F.
  apply N.eqb_eq, F, in_seq. lia.
Qed.

(** The frame that an entry of the outgoing list stands for. *)
Definition ofr (cmd : bool) (c : N) (d : list N) : oframe :=
  OF (if cmd then N.lor c 32768 else c) d 0.

Lemma enc_out : forall cmd c d,
  c < 512 -> N.of_nat (length d) <= 65530 ->
  enc (Fr cmd c d) = hdr_out (ofr cmd c d) ++ d.
Proof.
  intros cmd c d Hc Hd. unfold enc, hdr_out, ofr. cbn [fcmd fch fdat oid odat].
  set (n := N.of_nat (length d)) in *.
  assert (E : (if cmd then N.lor c 32768 else c) = (if cmd then 32768 + c else c))
    by (destruct cmd; [now apply lor_top|reflexivity]).
  rewrite E. set (id := if cmd then 32768 + c else c).
  assert (Hid : id < 65536) by (unfold id; destruct cmd; lia).
  rewrite (N.mod_small (id / 256) 256) by (apply N.div_lt_upper_bound; lia).
  rewrite (N.mod_small (n / 16777216) 256) by (apply N.div_lt_upper_bound; lia).
  reflexivity.
Qed.

Lemma be32 : forall a b c d, a < 256 -> b < 256 -> c < 256 -> d < 256 ->
  let n := ((a * 256 + b) * 256 + c) * 256 + d in
  n / 16777216 = a /\ n / 65536 mod 256 = b /\ n / 256 mod 256 = c /\ n mod 256 = d.
Proof.
  intros a b c d Ha Hb Hc Hd n.
  repeat split; subst n.
  - symmetry. apply (N.div_unique _ _ a (b * 65536 + c * 256 + d)); lia.
  - replace ((((a * 256 + b) * 256 + c) * 256 + d) / 65536) with (a * 256 + b).
    + symmetry. apply (N.mod_unique _ _ a b); lia.
    + apply (N.div_unique _ _ (a * 256 + b) (c * 256 + d)); lia.
  - replace ((((a * 256 + b) * 256 + c) * 256 + d) / 256) with ((a * 256 + b) * 256 + c).
    + symmetry. apply (N.mod_unique _ _ (a * 256 + b) c); lia.
    + apply (N.div_unique _ _ ((a * 256 + b) * 256 + c) d); lia.
  - symmetry. apply (N.mod_unique _ _ ((a * 256 + b) * 256 + c) d); lia.
Qed.

Lemma be32_back : forall n, n < 4294967296 ->
  ((n / 16777216 * 256 + n / 65536 mod 256) * 256 + n / 256 mod 256) * 256
  + n mod 256 = n.
Proof.
  intros n H.
  pose proof (N.div_mod n 256 ltac:(lia)) as E1.
  pose proof (N.div_mod (n / 256) 256 ltac:(lia)) as E2.
  pose proof (N.div_mod (n / 65536) 256 ltac:(lia)) as E3.
  rewrite N.div_div in E2 by lia. rewrite N.div_div in E3 by lia.
  change (256 * 256) with 65536 in E2. change (65536 * 256) with 16777216 in E3.
  lia.
Qed.

Lemma be16_back : forall n, n / 256 * 256 + n mod 256 = n.
Proof. intro n. pose proof (N.div_mod n 256 ltac:(lia)). lia. Qed.

Lemma enc_len : forall f, length (enc f) = (6 + length (fdat f))%nat.
Proof. intros. unfold enc. rewrite app_length. reflexivity. Qed.

(** The header of a valid frame says what it is. *)
Lemma enc_get : forall f, valid f ->
  get16 (enc f) = (if fcmd f then 32768 + fch f else fch f) /\
  get32 (enc f) = N.of_nat (length (fdat f)) /\
  exists a b c d e g, enc f = [a;b;c;d;e;g] ++ fdat f.
Proof.
  intros f [H1 H2]. unfold enc, get16, get32. cbn [nth app].
  repeat split.
  - apply be16_back.
  - apply be32_back. lia.
  - do 6 eexists. reflexivity.
Qed.

Lemma get16_app : forall h d, (2 <= length h)%nat -> get16 (h ++ d) = get16 h.
Proof.
  intros h d H. unfold get16. rewrite !app_nth1 by lia. reflexivity.
Qed.
Lemma get32_app : forall h d, (6 <= length h)%nat -> get32 (h ++ d) = get32 h.
Proof.
  intros h d H. unfold get32. rewrite !app_nth1 by lia. reflexivity.
Qed.

(** A header that is let through is the header of every frame with that
    length. *)
Lemma hdr_enc : forall h d,
  length h = 6%nat -> Forall (fun b => b < 256) h ->
  get32 h <= 65530 -> get16 h mod 32768 < 512 ->
  N.of_nat (length d) = get32 h ->
  enc (Fr (32768 <=? get16 h) (get16 h mod 32768) d) = h ++ d.
Proof.
  intros h d L B _ _ E.
  destruct h as [|a [|b [|c [|e [|f [|g [|x h]]]]]]]; try discriminate L.
  repeat match goal with H : Forall _ (_ :: _) |- _ => inversion H; subst; clear H end.
  unfold enc. cbn [fcmd fch fdat]. rewrite E.
  unfold get16, get32. cbn [nth].
  set (id := a * 256 + b).
  assert (Hid : id < 65536) by (unfold id; lia).
  assert (E1 : (if 32768 <=? id then 32768 + id mod 32768 else id mod 32768) = id).
  { destruct (32768 <=? id) eqn:C.
    - replace (id mod 32768) with (id - 32768); [lia|].
      apply (N.mod_unique _ _ 1 (id - 32768)); lia.
    - apply N.mod_small. lia. }
  rewrite E1.
  destruct (be32 c e f g) as (-> & -> & -> & ->); try assumption.
  replace (id / 256) with a by (apply (N.div_unique _ _ a b); unfold id; lia).
  replace (id mod 256) with b by (apply (N.mod_unique _ _ a b); unfold id; lia).
  reflexivity.
Qed.

(** * Reading frames back *)

Notation stuck := no_frame.

Lemma enc_inj : forall f g a b, valid f -> valid g ->
  enc f ++ a = enc g ++ b -> f = g /\ a = b.
Proof.
  intros f g a b Vf Vg E.
  destruct (enc_get f Vf) as (F1 & F2 & (x1&x2&x3&x4&x5&x6&Ef)).
  destruct (enc_get g Vg) as (G1 & G2 & (y1&y2&y3&y4&y5&y6&Eg)).
  assert (H16 : get16 (enc f) = get16 (enc g)).
  { rewrite <- (get16_app (enc f) a), <- (get16_app (enc g) b).
    - now rewrite E.
    - rewrite enc_len. lia.
    - rewrite enc_len. lia. }
  assert (H32 : get32 (enc f) = get32 (enc g)).
  { rewrite <- (get32_app (enc f) a), <- (get32_app (enc g) b).
    - now rewrite E.
    - rewrite enc_len. lia.
    - rewrite enc_len. lia. }
  rewrite F1, G1 in H16. rewrite F2, G2 in H32. clear F1 F2 G1 G2.
  destruct Vf as [Vf _], Vg as [Vg _].
  rewrite Ef, Eg in E. clear Ef Eg. cbn [app] in E.
  injection E as _ _ _ _ _ _ E.
  assert (L : length (fdat f) = length (fdat g)) by lia.
  assert (E2 : fdat f = fdat g /\ a = b).
  { clear -E L. revert L E. generalize (fdat f) (fdat g).
    induction l as [|u l IH]; intros [|v m] L E; try discriminate; auto.
    cbn in *. injection E as -> E. injection L as L.
    destruct (IH m L E) as [-> ->]. auto. }
  destruct E2 as [E2 E3]. split; auto.
  clear -H16 E2 Vf Vg.
  destruct f as [fc fh fd], g as [gc gh gd]. cbn [fcmd fch fdat] in *.
  destruct fc, gc; try (exfalso; lia); f_equal; auto; lia.
Qed.

Lemma encs_app : forall a b, encs (a ++ b) = encs a ++ encs b.
Proof. intros. unfold encs. apply flat_map_app. Qed.

Lemma encs_cons : forall f fs, encs (f :: fs) = enc f ++ encs fs.
Proof. reflexivity. Qed.

Lemma enc_not_nil : forall f r, enc f ++ r <> [].
Proof.
  intros f r E. apply (f_equal (@length N)) in E.
  rewrite app_length, enc_len in E. cbn [length] in E. lia.
Qed.

Global Opaque enc.

Lemma parse_unique : forall fs gs a b,
  Forall valid fs -> Forall valid gs ->
  stuck a -> stuck b -> encs fs ++ a = encs gs ++ b -> fs = gs /\ a = b.
Proof.
  induction fs as [|f fs IH]; intros [|g gs] a b Vf Vg Sa Sb E.
  - auto.
  - exfalso. inversion Vg; subst. rewrite encs_cons, <- app_assoc in E.
    now apply (Sa g (encs gs ++ b)).
  - exfalso. inversion Vf; subst. rewrite encs_cons, <- app_assoc in E.
    now apply (Sb f (encs fs ++ a)).
  - inversion Vf; inversion Vg; subst. rewrite !encs_cons, <- !app_assoc in E.
    destruct (enc_inj f g _ _ H1 H5 E) as [-> E'].
    destruct (IH gs a b H2 H6 Sa Sb E') as [-> ->]. auto.
Qed.

Lemma parse_prefix : forall fs gs a b,
  Forall valid fs -> Forall valid gs ->
  encs fs ++ a ++ b = encs gs -> exists r, gs = fs ++ r.
Proof.
  induction fs as [|f fs IH]; intros gs a b Vf Vg E.
  - exists gs. reflexivity.
  - destruct gs as [|g gs].
    + exfalso. rewrite encs_cons, <- app_assoc in E. now apply enc_not_nil in E.
    + inversion Vf; inversion Vg; subst. rewrite !encs_cons, <- !app_assoc in E.
      destruct (enc_inj f g _ _ H1 H5 E) as [-> E'].
      destruct (IH gs a b H2 H6) as [r ->]; auto.
      * now exists r.
Qed.

Lemma stuck_nil : stuck [].
Proof. intros f r V E. symmetry in E. now apply enc_not_nil in E. Qed.

Lemma stuck_short : forall h, (length h < 6)%nat -> stuck h.
Proof.
  intros h L f r V E. apply (f_equal (@length N)) in E.
  rewrite app_length, enc_len in E. lia.
Qed.

Lemma stuck_part : forall h b,
  length h = 6%nat -> N.of_nat (length b) < get32 h -> stuck (h ++ b).
Proof.
  intros h b L Hb f r V E.
  destruct (enc_get f V) as (_ & G & _).
  assert (E2 : get32 (h ++ b) = get32 (enc f ++ r)) by now rewrite E.
  rewrite get32_app in E2 by lia. rewrite get32_app in E2 by (rewrite enc_len; lia).
  apply (f_equal (@length N)) in E. rewrite !app_length, enc_len in E. lia.
Qed.

Lemma stuck_bad : forall h r, bad_header h -> stuck (h ++ r).
Proof.
  intros h r (a&b&c&d&e&f&->&B) g r' V E.
  destruct (enc_get g V) as (G1 & G2 & _). destruct V as [V1 V2].
  assert (E16 : get16 ([a;b;c;d;e;f] ++ r) = get16 (enc g ++ r')) by now rewrite E.
  assert (E32 : get32 ([a;b;c;d;e;f] ++ r) = get32 (enc g ++ r')) by now rewrite E.
  rewrite (get16_app (enc g)) in E16 by (rewrite enc_len; lia).
  rewrite (get32_app (enc g)) in E32 by (rewrite enc_len; lia).
  rewrite G1 in E16. rewrite G2 in E32.
  unfold get16, get32 in E16, E32. cbn [nth app] in E16, E32.
  destruct B as [B|B]; [lia|].
  rewrite E16 in B.
  replace ((if fcmd g then 32768 + fch g else fch g) mod 32768) with (fch g) in B; [lia|].
  destruct (fcmd g).
  - apply (N.mod_unique _ _ 1 (fch g)); lia.
  - symmetry. apply N.mod_small. lia.
Qed.
