From Coq Require Import List NArith Arith Bool Lia ZifyBool ZifyNat ZifyN.
From Verif Require Import Rsock.Model Rsock.Spec Rsock.Proofs.
Import ListNotations.
Local Open Scope N_scope.

(** * Invariants *)

Definition tof (c : N) (x : iframe) : frame := Fr (xcmd x) c (xdat x).

Definition partial (q : list iframe) : list N :=
  match q with [] => [] | x :: _ => firstn (xoff x) (xdat x) end.

Definition offs (q : list iframe) : Prop :=
  match q with
  | [] => True
  | x :: q' =>
      (xoff x = 0%nat \/ (xcmd x = false /\ (xoff x < length (xdat x))%nat)) /\
      Forall (fun y => xoff y = 0%nat) q'
  end.

Definition Achan (x : chan) (l : list ev) (c : N) : Prop :=
  own x = owner l c /\
  match own x with
  | None => inq x = []
  | Some n =>
      c < 512 /\ chan_of l n = c /\
      exists ds, came l n = ds ++ map (tof c) (inq x) /\ Forall data ds /\
                 given l n = bytes ds ++ partial (inq x) /\ offs (inq x)
  end.

Definition InvA (chs : N -> chan) (nx : N) (l : list ev) : Prop :=
  (forall c, Achan (chs c) l c) /\
  (forall n c, owner l c = Some n -> n < nx) /\
  (forall n, nx <= n -> came l n = [] /\ given l n = []).

Definition wire (g : oframe) : list N := hdr_out g ++ odat g.

Definition pend (q : list oframe) (w : nat) : list N :=
  match q with
  | [] => []
  | f :: q' =>
      skipn w (hdr_out f) ++ skipn (ooff f) (odat f) ++ flat_map wire q'
  end.

Definition wfq (q : list oframe) (w : nat) : Prop :=
  match q with
  | [] => w = 0%nat
  | f :: q' =>
      (w <= 6)%nat /\ ((w < 6)%nat -> ooff f = 0%nat) /\
      (w = 6%nat -> (ooff f < length (odat f))%nat) /\
      Forall (fun g => ooff g = 0%nat) q'
  end.

Definition InvB (q : list oframe) (w : nat) (l : list ev) : Prop :=
  encs (owed l) = txs l ++ pend q w /\ wfq q w /\ Forall valid (owed l).

Definition InvC (h : list N) (cmd : bool) (c len : N) (b : list N) (l : list ev)
  : Prop :=
  rxs l = encs (frames l) ++ h ++ b /\ Forall valid (frames l) /\
  Forall (fun x => x < 256) h /\
  (((length h < 6)%nat /\ b = []) \/
   (length h = 6%nat /\ 0 < len /\ len <= 65530 /\ c < 512 /\
    len = get32 h /\
    N.of_nat (length b) < len /\
    (forall d, N.of_nat (length d) = len -> enc (Fr cmd c d) = h ++ d))).

Definition idle (l : list ev) : Prop := forall e, due e l.

Record Inv (s : ep) : Prop := MkInv {
  iA : InvA (chans s) (next s) (log s);
  iB : InvB (outq s) (hw s) (log s);
  iC : InvC (hdr s) (icmd s) (ich s) (ilen s) (ibuf s) (log s);
  iL : lawful (log s);
  iI : idle (log s);
  iD : dead s = false;
  iH : ~ In EHup (log s) }.

(** What is left of it when the shared connection has failed. *)
Record DInv (s : ep) : Prop := MkD {
  dB : exists r, encs (owed (log s)) = txs (log s) ++ r;
  dV : Forall valid (owed (log s));
  dC : exists r, rxs (log s) = encs (frames (log s)) ++ r /\ stuck r;
  dF : Forall valid (frames (log s));
  dL : lawful (log s);
  dI : idle (log s);
  dO : forall c, owner (log s) c = None;
  dW : forall c, own (chans s c) = None;
  dX : failure (log s);
  dD : dead s = true }.

Lemma bytes_app : forall a b, bytes (a ++ b) = bytes a ++ bytes b.
Proof. intros. apply flat_map_app. Qed.

Lemma inv_init : Inv init.
Proof.
  constructor; cbn; auto.
  - split; [|split].
    + intro c. split; cbn; auto.
    + intros. discriminate.
    + intros. cbn. auto.
  - split; [|split]; cbn; auto.
  - split; [|split; [|split]]; cbn; auto. left. split; auto. lia.
  - intro e. cbn. auto.
Qed.

Lemma C_stuck : forall h cmd c len b l, InvC h cmd c len b l -> stuck (h ++ b).
Proof.
  intros h cmd c len b l (_ & _ & _ & [[H ->]|(H1 & _ & _ & _ & H2 & H3 & _)]).
  - rewrite app_nil_r. now apply stuck_short.
  - apply stuck_part; auto. lia.
Qed.

(** ** Channels *)

Lemma chan_owner : forall chs nx l c n,
  InvA chs nx l -> own (chs c) = Some n -> owner l c = Some n.
Proof. intros chs nx l c n (H & _) E. destruct (H c) as [E1 _]. congruence. Qed.

Lemma owner_chan : forall chs nx l c n,
  InvA chs nx l -> owner l c = Some n -> c < 512 /\ chan_of l n = c.
Proof.
  intros chs nx l c n (H & _) E. destruct (H c) as [E1 E2].
  rewrite E1, E in E2. tauto.
Qed.

(** The frame of a channel in use is queued on it. *)
Lemma A_frame_in : forall chs nx l c n cmd dat ok,
  InvA chs nx l -> own (chs c) = Some n ->
  InvA (fun d => if d =? c then Ch (own (chs c)) (inq (chs c) ++ [IF cmd dat 0])
                 else chs d) nx (EFrame (Fr cmd c dat) ok :: l).
Proof.
  intros chs nx l c n cmd dat ok HA Ho. pose proof (chan_owner _ _ _ _ _ HA Ho) as Ow.
  destruct (owner_chan _ _ _ _ _ HA Ow) as [Lc Cc].
  destruct HA as (H1 & H2 & H3).
  split; [|split].
  - intro d. destruct (d =? c) eqn:E.
    + apply N.eqb_eq in E. subst d. destruct (H1 c) as [E1 E2].
      unfold Achan. cbn [own inq owner chan_of came given fch].
      rewrite Ho in *. split; auto.
      destruct E2 as (_ & _ & ds & D1 & D2 & D3 & D4).
      split; auto. split; auto. exists ds.
      rewrite Ow, N.eqb_refl, D1. rewrite map_app, app_assoc. cbn [map tof xcmd xdat].
      split; auto. split; auto. split.
      * rewrite D3. f_equal. unfold partial. destruct (inq (chs c)); reflexivity.
      * destruct (inq (chs c)) as [|x q]; cbn in *.
        -- split; auto.
        -- destruct D4 as [D4 D5]. split; auto. apply Forall_app. split; auto.
    + destruct (H1 d) as [E1 E2]. unfold Achan. cbn [owner chan_of came given fch].
      split; auto. destruct (own (chs d)) as [m|] eqn:Em; auto.
      assert (Nm : (n =? m) = false).
      { apply N.eqb_neq. intro. subst m. destruct E2 as (_ & E2 & _).
        apply N.eqb_neq in E. congruence. }
      rewrite Ow, Nm, app_nil_r. exact E2.
  - intros m d. cbn [owner]. apply H2.
  - intros m Hm. cbn [came given fch]. rewrite Ow.
    assert (n < nx) by eauto.
    replace (n =? m) with false by (symmetry; apply N.eqb_neq; lia).
    rewrite app_nil_r. auto.
Qed.

(** The frame of a free channel concerns no connection. *)
Lemma A_frame_free : forall chs nx l f ok,
  InvA chs nx l -> own (chs (fch f)) = None -> InvA chs nx (EFrame f ok :: l).
Proof.
  intros chs nx l f ok (H1 & H2 & H3) Ho.
  assert (Ow : owner l (fch f) = None) by (destruct (H1 (fch f)); congruence).
  split; [|split].
  - intro d. destruct (H1 d) as [E1 E2]. unfold Achan.
    cbn [owner chan_of came given]. split; auto.
    destruct (own (chs d)); auto. rewrite Ow, app_nil_r. exact E2.
  - intros m d. cbn [owner]. apply H2.
  - intros m Hm. cbn [came given]. rewrite Ow, app_nil_r. auto.
Qed.

(** A channel gets an owner, by either event. *)
Lemma A_open : forall chs nx l c e,
  e = ECon nx c \/ e = EAcc nx c ->
  InvA chs nx l -> own (chs c) = None -> c < 512 ->
  InvA (fun d => if d =? c then Ch (Some nx) (inq (chs c)) else chs d)
       (nx + 1) (e :: l).
Proof.
  intros chs nx l c e He (H1 & H2 & H3) Ho Lc.
  assert (Ow : forall d, owner (e :: l) d = if c =? d then Some nx else owner l d)
    by (intro; destruct He; subst; reflexivity).
  assert (Co : forall m, chan_of (e :: l) m = if nx =? m then c else chan_of l m)
    by (intro; destruct He; subst; reflexivity).
  assert (Ca : forall m, came (e :: l) m = came l m)
    by (intro; destruct He; subst; reflexivity).
  assert (Gi : forall m, given (e :: l) m = given l m)
    by (intro; destruct He; subst; reflexivity).
  split; [|split].
  - intro d. unfold Achan. destruct (d =? c) eqn:E.
    + apply N.eqb_eq in E. subst d. cbn [own inq].
      rewrite Ow, Co, Ca, Gi, !N.eqb_refl. split; auto. split; auto. split; auto.
      destruct (H1 c) as [E1 E2]. rewrite Ho in E2. rewrite E2.
      exists []. destruct (H3 nx) as [-> ->]; [lia|]. cbn. auto.
    + rewrite Ow. replace (c =? d) with false by lia.
      destruct (H1 d) as [E1 E2]. split; auto.
      destruct (own (chs d)) as [m|] eqn:Em; auto.
      assert (m < nx) by (apply (H2 m d); congruence).
      rewrite Co, Ca, Gi. replace (nx =? m) with false by lia. exact E2.
  - intros m d. rewrite Ow. destruct (c =? d).
    + intro E. injection E as <-. lia.
    + intro E. apply H2 in E. lia.
  - intros m Hm. rewrite Ca, Gi. apply H3. lia.
Qed.

(** A channel loses its owner. *)
Lemma A_close : forall chs nx l c n h,
  InvA chs nx l -> own (chs c) = Some n ->
  InvA (fun d => if d =? c then Ch None [] else chs d) nx (EClose n h :: l).
Proof.
  intros chs nx l c n h HA Ho. pose proof (chan_owner _ _ _ _ _ HA Ho) as Ow.
  destruct (owner_chan _ _ _ _ _ HA Ow) as [Lc Cc].
  destruct HA as (H1 & H2 & H3).
  split; [|split].
  - intro d. unfold Achan. destruct (d =? c) eqn:E.
    + apply N.eqb_eq in E. subst d. cbn [own inq owner].
      rewrite Ow, N.eqb_refl. auto.
    + destruct (H1 d) as [E1 E2]. cbn [owner chan_of came given].
      rewrite <- E1. destruct (own (chs d)) as [m|] eqn:Em; auto.
      assert (Nm : (m =? n) = false).
      { apply N.eqb_neq. intro. subst m. destruct E2 as (_ & E2 & _).
        apply N.eqb_neq in E. congruence. }
      rewrite Nm. split; auto.
  - intros m d. cbn [owner]. destruct (owner l d) as [k|] eqn:Ek; [|discriminate].
    destruct (k =? n); [discriminate|]. intro E. injection E as <-. eauto.
  - intros m Hm. cbn [came given]. auto.
Qed.

(** Bytes of the first frame of a channel are given to its connection. *)
Lemma A_deliver : forall chs nx l c n f q b,
  InvA chs nx l -> own (chs c) = Some n -> inq (chs c) = f :: q ->
  xcmd f = false -> xdat f <> [] ->
  b <> [] -> (exists r, skipn (xoff f) (xdat f) = b ++ r) ->
  InvA (fun d => if d =? c then
                   Ch (own (chs c))
                      (if (xoff f + length b =? length (xdat f))%nat then q
                       else IF (xcmd f) (xdat f) (xoff f + length b) :: q)
                 else chs d) nx (EDeliv n b :: l) /\
  fits (EDeliv n b) l.
Proof.
  intros chs nx l c n f q b HA Ho Hq Hc Hd Hb [r Hr].
  pose proof (chan_owner _ _ _ _ _ HA Ho) as Ow.
  destruct (owner_chan _ _ _ _ _ HA Ow) as [Lc Cc].
  destruct HA as (H1 & H2 & H3).
  destruct (H1 c) as [E1 E2]. rewrite Ho, Hq in E2.
  destruct E2 as (_ & _ & ds & D1 & D2 & D3 & D4).
  cbn [map partial offs] in *. destruct D4 as [D4 D5].
  assert (Ld : (xoff f + length b <= length (xdat f))%nat).
  { apply (f_equal (@length N)) in Hr. rewrite skipn_length, app_length in Hr.
    destruct b; [congruence|]. cbn [length] in *. lia. }
  assert (Sp : xdat f = firstn (xoff f) (xdat f) ++ b ++ r)
    by (rewrite <- Hr; symmetry; apply firstn_skipn).
  assert (Lf : length (firstn (xoff f) (xdat f)) = xoff f)
    by (rewrite firstn_length; lia).
  assert (Pf : firstn (xoff f + length b) (xdat f) =
               firstn (xoff f) (xdat f) ++ b).
  { rewrite Sp at 1. rewrite app_assoc, firstn_app.
    rewrite firstn_all2 by (rewrite app_length; lia).
    rewrite app_length, Lf, Nat.sub_diag. cbn [firstn]. now rewrite app_nil_r. }
  split.
  - split; [|split].
    + intro d. unfold Achan. destruct (d =? c) eqn:E.
      * apply N.eqb_eq in E. subst d. cbn [own inq owner chan_of came given].
        rewrite Ho. split; auto. split; auto. split; auto.
        rewrite N.eqb_refl.
        destruct (xoff f + length b =? length (xdat f))%nat eqn:F.
        -- apply Nat.eqb_eq in F. exists (ds ++ [tof c f]). split; [|split; [|split]].
           ++ rewrite <- app_assoc. exact D1.
           ++ apply Forall_app. split; auto. constructor; auto. split; auto.
           ++ rewrite D3, <- app_assoc, <- Pf, F, firstn_all, bytes_app.
              cbn [bytes flat_map tof fdat]. rewrite app_nil_r, <- app_assoc.
              f_equal. destruct q as [|y q]; cbn.
              ** now rewrite app_nil_r.
              ** inversion D5; subst. rewrite H4. cbn. now rewrite app_nil_r.
           ++ destruct q as [|y q]; cbn; auto. inversion D5; subst. auto.
        -- apply Nat.eqb_neq in F. exists ds. split; [|split; [|split]]; auto.
           ++ cbn [partial xoff xdat]. rewrite D3, Pf. now rewrite <- app_assoc.
           ++ cbn. split; auto. right. split; auto. lia.
      * destruct (H1 d) as [F1 F2]. cbn [owner chan_of came given]. split; auto.
        destruct (own (chs d)) as [m|] eqn:Em; auto.
        assert (Nm : (n =? m) = false).
        { apply N.eqb_neq. intro. subst m. destruct F2 as (_ & F2 & _).
          apply N.eqb_neq in E. congruence. }
        rewrite Nm, app_nil_r. exact F2.
    + intros m d. cbn [owner]. apply H2.
    + intros m Hm. cbn [came given].
      assert (n < nx) by eauto.
      replace (n =? m) with false by (symmetry; apply N.eqb_neq; lia).
      rewrite app_nil_r. auto.
  - cbn [fits]. split; [eauto|]. split; auto.
    exists (ds ++ [tof c f]), (map (tof c) q). split; [|split].
    + rewrite <- app_assoc. exact D1.
    + apply Forall_app. split; auto. constructor; auto. split; auto.
    + exists r. rewrite bytes_app. cbn [bytes flat_map tof fdat].
      rewrite app_nil_r, D3. rewrite Sp at 1. rewrite <- !app_assoc. reflexivity.
Qed.

(** The first frame of a channel, when it is not data, is reached only once
    everything before it was given. *)
Lemma A_stop : forall chs nx l c n f q,
  InvA chs nx l -> own (chs c) = Some n -> inq (chs c) = f :: q ->
  xcmd f = true \/ xdat f = [] ->
  exists ds rest, came l n = ds ++ tof c f :: rest /\ Forall data ds /\
                  given l n = bytes ds /\ ~ data (tof c f).
Proof.
  intros chs nx l c n f q (H1 & _) Ho Hq St.
  destruct (H1 c) as [E1 E2]. rewrite Ho, Hq in E2.
  destruct E2 as (_ & _ & ds & D1 & D2 & D3 & D4).
  exists ds, (map (tof c) q). split; auto. split; auto.
  cbn [partial offs] in *. destruct D4 as [D4 _]. split.
  - assert (firstn (xoff f) (xdat f) = []) as Z.
    { destruct D4 as [->|[D4 D6]]; auto. destruct St as [St|St]; [congruence|].
      rewrite St in *. now destruct (xoff f). }
    rewrite Z, app_nil_r in D3. exact D3.
  - intros [X Y]. cbn in *. destruct St; congruence.
Qed.

(** ** The frames to write *)

Lemma B_append : forall q w l l' cmd c d,
  InvB q w l -> c < 512 -> N.of_nat (length d) <= 65530 ->
  owed l' = owed l ++ [Fr cmd c d] -> txs l' = txs l ->
  InvB (q ++ [ofr cmd c d]) w l'.
Proof.
  intros q w l l' cmd c d (H1 & H2 & H3) Lc Ld Ho Ht.
  split; [|split].
  - rewrite Ho, encs_app, Ht, H1, <- app_assoc. f_equal.
    change (encs [Fr cmd c d]) with (enc (Fr cmd c d) ++ []).
    rewrite app_nil_r, enc_out by auto.
    destruct q as [|f q].
    + cbn [wfq] in H2. subst w. cbn [pend app skipn ofr ooff odat flat_map].
      now rewrite app_nil_r.
    + cbn [pend app]. rewrite flat_map_app, <- !app_assoc. do 2 f_equal. f_equal.
      cbn [flat_map]. now rewrite app_nil_r.
  - destruct q as [|f q].
    + cbn [wfq] in H2. subst w. cbn. split; [lia|]. split; auto. split; [lia|auto].
    + cbn [app wfq] in *. destruct H2 as (A1 & A2 & A3 & A4).
      split; auto. split; auto. split; auto. apply Forall_app. auto.
  - rewrite Ho. apply Forall_app. split; auto. constructor; auto. split; auto.
Qed.

Lemma B_same : forall q w l l',
  InvB q w l -> owed l' = owed l -> txs l' = txs l -> InvB q w l'.
Proof. intros q w l l' (H1 & H2 & H3) Ho Ht. unfold InvB. now rewrite Ho, Ht. Qed.

Lemma hdr_out_len : forall f, length (hdr_out f) = 6%nat.
Proof. reflexivity. Qed.

(** ** Lawful histories *)

Lemma idle_ev : forall e l,
  match e with EFrame f true => is_cmd f s_connect -> owner l (fch f) = None -> False
             | _ => True end ->
  idle (e :: l).
Proof.
  intros e l H e'. unfold due. destruct e; auto. destruct ok; auto.
  intros A B. destruct (H A B).
Qed.
