From Coq Require Import List NArith Arith Bool Lia ZifyBool ZifyNat ZifyN.
From Verif Require Import Rsock.Model Rsock.Spec Rsock.Proofs Rsock.Proofs2.
Import ListNotations.
Local Open Scope N_scope.

(** * The shared connection fails *)

Record K (s : ep) : Prop := MkK {
  kA : InvA (chans s) (next s) (log s);
  kB : exists q w, InvB q w (log s);
  kC : exists r, rxs (log s) = encs (frames (log s)) ++ r /\ stuck r;
  kF : Forall valid (frames (log s));
  kL : lawful (log s);
  kI : idle (log s);
  kX : failure (log s) }.

Lemma K_snip : forall s c n, K s -> own (chans s c) = Some n ->
  K (snip s c n Failed).
Proof.
  intros s c n [A (q & w & B) C F L I X] Ho. constructor; cbn -[fits].
  - exact (A_close _ _ _ _ _ Failed A Ho).
  - exists q, w. eapply B_same; eauto.
  - exact C.
  - exact F.
  - split; [|split; auto]. split; [|exact X].
    exists c. eapply chan_owner; eauto.
  - apply idle_ev. exact Coq.Init.Logic.I.
  - destruct X as [X|X]; [left; now right|right; exact X].
Qed.

Lemma K_close_all : forall cs s, K s ->
  K (close_all cs s) /\
  (forall c, own (chans s c) = None -> own (chans (close_all cs s) c) = None) /\
  (forall c, In c cs -> own (chans (close_all cs s) c) = None).
Proof.
  induction cs as [|c cs IH]; intros s Hs.
  - cbn. split; auto. split; auto. intros ? [].
  - cbn [close_all]. destruct (own (chans s c)) as [n|] eqn:Ho.
    + destruct (IH _ (K_snip _ _ _ Hs Ho)) as (H1 & H2 & H3).
      split; auto. split.
      * intros d Hd. apply H2. cbn. destruct (d =? c); auto.
      * intros d [->|Hd]; auto. apply H2. cbn. now rewrite N.eqb_refl.
    + destruct (IH _ Hs) as (H1 & H2 & H3). split; auto. split; auto.
      intros d [->|Hd]; auto.
Qed.

Lemma channel_in : forall c, c < 512 -> In c channel_list.
Proof.
  intros c Hc. unfold channel_list. apply in_map_iff. exists (N.to_nat c).
  split; [lia|]. apply in_seq. lia.
Qed.

Lemma die_D : forall s, K s -> DInv (die s).
Proof.
  intros s Hs. destruct (K_close_all channel_list s Hs) as (H1 & _ & H3).
  unfold die. revert H1 H3. generalize (close_all channel_list s).
  intros s1 [A (q & w & B) C F L I X] H3.
  assert (W : forall c, own (chans s1 c) = None).
  { intro c. destruct (own (chans s1 c)) as [n|] eqn:E; auto. exfalso.
    pose proof (chan_owner _ _ _ _ _ A E) as Ow.
    destruct (owner_chan _ _ _ _ _ A Ow) as [Lc _].
    assert (own (chans s1 c) = None) by (apply H3, channel_in; auto).
    congruence. }
  constructor; cbn [mark_dead log dead chans]; auto.
  - destruct B as (B & _). eauto.
  - destruct B as (_ & _ & B). auto.
  - intro c. destruct A as (A & _). destruct (A c) as [A1 _]. now rewrite <- A1, W.
Qed.

(** From a state at rest, after an error. *)
Lemma K_hup : forall s, Inv s -> K (seen EHup s).
Proof.
  intros s [A B C L I D H]. constructor; cbn [seen chans next log]; auto.
  - eauto.
  - pose proof (C_stuck _ _ _ _ _ _ C). destruct C as (C & _). eauto.
  - destruct C as (_ & C & _). auto.
  - cbn. auto.
  - apply idle_ev. exact Coq.Init.Logic.I.
  - left. now left.
Qed.

Lemma die_hup : forall s, Inv s -> DInv (die (seen EHup s)).
Proof. intros. apply die_D, K_hup. auto. Qed.

(** * Reading *)

Lemma C_new : forall l, rxs l = encs (frames l) -> Forall valid (frames l) ->
  InvC [] false 0 0 [] l.
Proof.
  intros l H V. split; [|split; [|split]]; auto.
  - now rewrite !app_nil_r.
  - left. cbn. split; auto. lia.
Qed.

Lemma valid_cmd : forall c, c < 512 ->
  valid (Fr true c s_reset).
Proof. intros. split; cbn; lia. Qed.

(** A whole frame, from a state in which only the frame is missing from the
    history. *)
Lemma dispatch_inv : forall s ok s' r,
  InvA (chans s) (next s) (log s) -> InvB (outq s) (hw s) (log s) ->
  lawful (log s) -> idle (log s) -> dead s = false -> ~ In EHup (log s) ->
  Forall valid (frames (log s)) ->
  ich s < 512 -> N.of_nat (length (ibuf s)) <= 65530 ->
  rxs (log s) = encs (frames (log s)) ++ enc (Fr (icmd s) (ich s) (ibuf s)) ->
  dispatch s ok = (s', r) -> Inv s' /\ r <> Refused.
Proof.
  intros s ok s' r A B L I D H V Lc Ld R E.
  unfold dispatch in E. cbn [fresh seen chans] in E.
  set (f := Fr (icmd s) (ich s) (ibuf s)) in *.
  assert (R' : rxs (EFrame f ok :: log s) = encs (frames (EFrame f ok :: log s))).
  { cbn [rxs frames]. rewrite R, encs_app. f_equal.
    change (encs [f]) with (enc f ++ []). now rewrite app_nil_r. }
  assert (V' : Forall valid (frames (EFrame f ok :: log s))).
  { cbn [frames]. apply Forall_app. split; auto. constructor; auto. split; auto. }
  assert (L' : lawful (EFrame f ok :: log s)) by (cbn; auto).
  assert (H' : ~ In EHup (EFrame f ok :: log s)).
  { intros [X|X]; [discriminate|auto]. }
  destruct (own (chans s (ich s))) as [n|] eqn:Ho.
  - injection E as <- <-. split; [|discriminate].
    pose proof (chan_owner _ _ _ _ _ A Ho) as Ow.
    constructor; cbn [append_in set_chan fresh seen chans next log outq hw hdr icmd ich ilen ibuf dead]; auto.
    + eapply A_frame_in; eauto.
    + apply (B_same _ _ (log s)); auto. cbn [owed].
      change (fch f) with (ich s). now rewrite Ow, app_nil_r.
    + now apply C_new.
    + apply idle_ev. destruct ok; auto. cbn. intros _ X. congruence.
  - assert (Ow : owner (log s) (ich s) = None)
      by (destruct A as (A & _); destruct (A (ich s)); congruence).
    pose proof (A_frame_free _ _ _ f ok A Ho) as A'.
    rewrite !(ifcmd_is_cmdb (icmd s) (ich s) (ibuf s)) in E. fold f in E.
    destruct (is_cmdb f s_connect && ok) eqn:Eg.
    + injection E as <- <-. split; [|discriminate].
      apply andb_prop in Eg. destruct Eg as [Eg ->].
      apply is_cmdb_iff in Eg. destruct Eg as [G1 G2].
      assert (Ef : f = Fr true (ich s) s_connect).
      { unfold f in *. cbn [fcmd fdat] in *. now rewrite G1, G2. }
      constructor; cbn [accept set_chan fresh seen chans next log outq hw hdr icmd ich ilen ibuf dead]; auto.
      * apply A_open; auto.
      * apply (B_same _ _ (log s)); auto. cbn [owed].
        change (fch f) with (ich s). rewrite Ow.
        destruct (is_cmdb f s_reset); [apply app_nil_r|].
        replace (is_cmdb f s_connect) with true
          by (symmetry; apply is_cmdb_iff; split; auto).
        apply app_nil_r.
      * now apply C_new.
      * split; [|split; auto].
        -- split.
           ++ exists (log s). rewrite Ef. auto.
           ++ destruct A' as (_ & _ & A'). apply A'. lia.
        -- cbn. intros _ _. now exists (next s).
      * apply idle_ev. exact Coq.Init.Logic.I.
      * intros [X|X]; [discriminate|auto].
    + assert (I' : idle (EFrame f ok :: log s)).
      { apply idle_ev. destruct ok; auto. intros X _. apply is_cmdb_iff in X.
        rewrite X in Eg. discriminate. }
      destruct (is_cmdb f s_reset) eqn:Er.
      * injection E as <- <-. split; [|discriminate].
        constructor; cbn [fresh seen chans next log outq hw hdr icmd ich ilen ibuf dead]; auto.
        -- apply (B_same _ _ (log s)); auto. cbn [owed].
           change (fch f) with (ich s). rewrite Ow, Er. apply app_nil_r.
        -- now apply C_new.
      * injection E as <- <-. split; [|discriminate].
        constructor; cbn [command_out append_out fresh seen chans next log outq hw hdr icmd ich ilen ibuf dead]; auto.
        -- apply (B_append _ _ (log s) _ true); auto.
           ++ cbn. lia.
           ++ cbn [owed]. change (fch f) with (ich s). rewrite Ow, Er, Eg. reflexivity.
        -- now apply C_new.
Qed.

Lemma feed_inv : forall s x xs ok s' r,
  Inv s -> Forall (fun b => b < 256) (x :: xs) ->
  (length (x :: xs) <= want s)%nat ->
  feed (seen (ERx (x :: xs)) s) (x :: xs) ok = (s', r) ->
  (r <> Refused -> Inv s') /\
  (r = Refused -> K s').
Proof.
  intros s x xs ok s' r [A B C L I D H] Bx W E.
  set (p := x :: xs) in *.
  assert (Lp : (0 < length p)%nat) by (cbn; lia).
  assert (A' : InvA (chans s) (next s) (ERx p :: log s)) by exact A.
  assert (B' : InvB (outq s) (hw s) (ERx p :: log s)) by exact B.
  assert (L' : lawful (ERx p :: log s)) by (cbn; auto).
  assert (I' : idle (ERx p :: log s)) by (apply idle_ev; exact Coq.Init.Logic.I).
  assert (H' : ~ In EHup (ERx p :: log s)) by (intros [X|X]; [discriminate|auto]).
  destruct C as (C1 & C2 & C3 & C4).
  unfold feed in E. cbn [seen hdr] in E. unfold want in W.
  destruct (length (hdr s) <? 6)%nat eqn:Hl.
  - apply Nat.ltb_lt in Hl. destruct C4 as [[_ C4]|[C4 _]]; [|lia].
    rewrite C4, app_nil_r in C1.
    assert (Bh : Forall (fun b => b < 256) (hdr s ++ p)) by (apply Forall_app; auto).
    destruct (length (hdr s ++ p) <? 6)%nat eqn:Hl2.
    + injection E as <- <-. split; [|discriminate]. intros _.
      apply Nat.ltb_lt in Hl2.
      constructor; cbn [set_hdr seen chans next log outq hw hdr icmd ich ilen ibuf dead]; auto.
      split; [|split; [|split]]; auto.
      cbn [rxs frames]. rewrite C1, C4, app_nil_r. now rewrite <- app_assoc.
    + apply Nat.ltb_ge in Hl2.
      assert (Hl3 : length (hdr s ++ p) = 6%nat) by (rewrite app_length in *; lia).
      set (h := hdr s ++ p) in *.
      assert (Hid : get16 h < 65536).
      { clear -Bh Hl3. destruct h as [|a [|b h]]; try discriminate Hl3.
        inversion Bh; inversion H2; subst. unfold get16. cbn [nth]. lia. }
      rewrite land15, land_low in E by exact Hid.
      assert (Ecmd : negb (get16 h <? 32768) = (32768 <=? get16 h)) by lia.
      rewrite Ecmd in E.
      assert (Ec : (if 32768 <=? get16 h then get16 h mod 32768 else get16 h) =
                   get16 h mod 32768).
      { destruct (32768 <=? get16 h) eqn:Z; auto. rewrite N.mod_small; lia. }
      rewrite Ec in E.
      assert (R : rxs (ERx p :: log s) = encs (frames (ERx p :: log s)) ++ h).
      { cbn [rxs frames]. rewrite C1. unfold h. now rewrite <- app_assoc. }
      assert (Kb : bad_header h -> forall s2, chans s2 = chans s -> next s2 = next s ->
                   log s2 = ERx p :: log s -> K s2).
      { intros Hb s2 Q1 Q2 Q3. constructor; rewrite ?Q1, ?Q2, ?Q3; auto.
        - exists (outq s), (hw s). auto.
        - exists h. split; auto. rewrite <- (app_nil_r h). now apply stuck_bad.
        - right. eauto. }
      assert (Sh : exists a b c d e g, h = [a;b;c;d;e;g]).
      { clear -Hl3. destruct h as [|a [|b [|c [|d [|e [|g [|z h]]]]]]]; try discriminate Hl3.
        now exists a, b, c, d, e, g. }
      unfold max_frame, max_channels in E.
      destruct (65530 <? get32 h) eqn:F1.
      * injection E as <- <-. split; [congruence|]. intros _. apply Kb; auto.
        destruct Sh as (a&b&c&d&e&g&Sh). exists a,b,c,d,e,g. split; auto. left.
        rewrite Sh in F1. unfold get32 in F1. cbn [nth] in F1. lia.
      * destruct (512 <=? get16 h mod 32768) eqn:F2.
        -- injection E as <- <-. split; [congruence|]. intros _. apply Kb; auto.
           destruct Sh as (a&b&c&d&e&g&Sh). exists a,b,c,d,e,g. split; auto. right.
           rewrite Sh in F2. unfold get16 in F2. cbn [nth] in F2. lia.
        -- destruct (get32 h =? 0) eqn:F3.
           ++ apply (dispatch_inv (set_infl (set_hdr (seen (ERx p) s) h)
                 (32768 <=? get16 h) (get16 h mod 32768) (get32 h) [])) in E;
                cbn [set_infl set_hdr seen chans next log outq hw hdr icmd ich ilen ibuf dead]; auto.
              ** destruct E as [E1 E2]. split; [auto|congruence].
              ** cbn [frames] in *. lia.
              ** cbn. lia.
              ** rewrite hdr_enc; auto; try lia; [|cbn [length]; lia].
                 rewrite app_nil_r. exact R.
           ++ injection E as <- <-. split; [|discriminate]. intros _.
              constructor; cbn [set_infl set_hdr seen chans next log outq hw hdr icmd ich ilen ibuf dead]; auto.
              split; [|split; [|split]]; auto.
              ** rewrite app_nil_r. exact R.
              ** right. split; auto. split; [lia|]. split; [lia|]. split; [lia|].
                 split; auto. split; [cbn [length]; lia|].
                 intros d Hd. apply hdr_enc; auto; lia.
  - apply Nat.ltb_ge in Hl.
    destruct C4 as [[C4 _]|(C4 & C5 & C6 & C7 & C8 & C9 & C10)]; [lia|].
    cbn [seen icmd ich ilen ibuf] in E.
    assert (R : rxs (ERx p :: log s) =
                encs (frames (ERx p :: log s)) ++ hdr s ++ (ibuf s ++ p)).
    { cbn [rxs frames]. rewrite C1. now rewrite <- !app_assoc. }
    destruct (N.of_nat (length (ibuf s ++ p)) <? ilen s) eqn:F.
    + injection E as <- <-. split; [|discriminate]. intros _.
      constructor; cbn [set_infl set_hdr seen chans next log outq hw hdr icmd ich ilen ibuf dead]; auto.
      split; [|split; [|split]]; auto.
      right. repeat (split; auto). lia.
    + apply (dispatch_inv (set_infl (seen (ERx p) s) (icmd s) (ich s) (ilen s) (ibuf s ++ p))) in E;
        cbn [set_infl set_hdr seen chans next log outq hw hdr icmd ich ilen ibuf dead]; auto.
      * destruct E as [E1 E2]. split; [auto|congruence].
      * rewrite app_length in *. lia.
      * rewrite C10; auto. rewrite app_length in *. lia.
Qed.

Definition byte_ans (r : rans) : Prop :=
  match r with RGot l _ => Forall (fun b => b < 256) l | _ => True end.

Definition Good (s : ep) : Prop := Inv s \/ DInv s.

Lemma Forall_firstn : forall (P : N -> Prop) n l, Forall P l -> Forall P (firstn n l).
Proof.
  intros P n l H. revert n. induction H; intros [|n]; cbn; auto.
Qed.

Lemma rloop_good : forall rs k s,
  Inv s -> Forall byte_ans rs -> Good (rloop rs k s).
Proof.
  induction rs as [|r rs IH]; intros k s Hs Hb; [now left|].
  inversion Hb; subst. cbn [rloop]. destruct r as [l ok| |].
  - destruct (firstn (want s) l) as [|x xs] eqn:Ef.
    + right. now apply die_hup.
    + destruct (feed (seen (ERx (x :: xs)) s) (x :: xs) ok) as [s1 r] eqn:Efd.
      assert (B1 : Forall (fun b => b < 256) (x :: xs)).
      { rewrite <- Ef. apply Forall_firstn. assumption. }
      assert (B2 : (length (x :: xs) <= want s)%nat).
      { rewrite <- Ef, firstn_length. lia. }
      destruct (feed_inv _ _ _ _ _ _ Hs B1 B2 Efd) as [G1 G2].
      destruct r.
      * apply IH; auto. apply G1. discriminate.
      * assert (Inv s1) by (apply G1; discriminate).
        destruct k as [|[|k]]; try (left; assumption). now apply IH.
      * apply IH; auto. apply G1. discriminate.
      * right. apply die_D. auto.
  - now left.
  - right. now apply die_hup.
Qed.
