From Coq Require Import List NArith Arith Bool Lia ZifyBool ZifyNat ZifyN.
From Verif Require Import Rsock.Model Rsock.Spec Rsock.Proofs Rsock.Proofs2
     Rsock.Proofs3.
Import ListNotations.
Local Open Scope N_scope.

(** * Writing *)

Lemma skipn_add : forall (l : list N) a b, skipn (a + b) l = skipn b (skipn a l).
Proof.
  induction l as [|x l IH]; intros a b.
  - now rewrite !skipn_nil.
  - destruct a as [|a]; cbn; auto.
Qed.

Lemma firstn_split : forall k (l p : list N), firstn k l = p ->
  l = p ++ skipn (length p) l.
Proof.
  intros k l p <-. rewrite firstn_length.
  destruct (Nat.le_gt_cases k (length l)).
  - rewrite Nat.min_l by lia. symmetry. apply firstn_skipn.
  - rewrite Nat.min_r by lia. rewrite firstn_all2 by lia.
    rewrite skipn_all. now rewrite app_nil_r.
Qed.

Lemma pend_zero : forall q, Forall (fun g => ooff g = 0%nat) q ->
  pend q 0 = flat_map wire q /\ wfq q 0.
Proof.
  intros q H. destruct H as [|f q Hf Hq]; [split; reflexivity|].
  cbn [pend wfq flat_map]. rewrite Hf. cbn [skipn]. split.
  - unfold wire at 2. now rewrite <- app_assoc.
  - split; [lia|]. split; auto. split; [lia|auto].
Qed.

(** Bytes of the header of the first frame go out. *)
Lemma B_hdr : forall f q w l p,
  InvB (f :: q) w l -> (w < 6)%nat -> p <> [] ->
  skipn w (hdr_out f) = p ++ skipn (length p) (skipn w (hdr_out f)) ->
  (w + length p <= 6)%nat /\
  if ((w + length p =? 6) && (length (odat f) <=? ooff f))%nat
  then InvB q 0 (ETx p :: l)
  else InvB (f :: q) (w + length p) (ETx p :: l).
Proof.
  intros f q w l p (H1 & H2 & H3) Lw Hp Sp.
  destruct H2 as (A1 & A2 & A3 & A4). specialize (A2 Lw).
  assert (Lp : (w + length p <= 6)%nat).
  { apply (f_equal (@length N)) in Sp.
    rewrite app_length, skipn_length, hdr_out_len in Sp. lia. }
  split; auto.
  assert (P1 : (0 < length p)%nat) by (destruct p; [congruence|cbn; lia]).
  rewrite <- skipn_add in Sp.
  assert (E : encs (owed l) =
    (txs l ++ p) ++ skipn (w + length p) (hdr_out f) ++
    skipn (ooff f) (odat f) ++ flat_map wire q).
  { rewrite H1. cbn [pend]. rewrite Sp. now rewrite <- !app_assoc. }
  destruct (w + length p =? 6)%nat eqn:F1; cbn [andb].
  - apply Nat.eqb_eq in F1. rewrite F1 in *.
    assert (Z : skipn 6 (hdr_out f) = []) by reflexivity.
    rewrite Z in E. cbn [app] in E.
    destruct (length (odat f) <=? ooff f)%nat eqn:F2.
    + apply Nat.leb_le in F2. destruct (pend_zero q A4) as [P2 P3].
      split; [|split]; auto. cbn [owed txs]. rewrite P2, E.
      rewrite skipn_all2 by lia. reflexivity.
    + apply Nat.leb_gt in F2. split; [exact E|split]; auto.
      cbn [wfq]. split; [lia|]. split; [lia|]. split; auto.
  - apply Nat.eqb_neq in F1. split; [|split]; auto.
    cbn [wfq]. split; [lia|]. split; auto. split; [lia|auto].
Qed.

(** Bytes of the payload of the first frame go out. *)
Lemma B_pay : forall f q l p,
  InvB (f :: q) 6 l -> p <> [] ->
  skipn (ooff f) (odat f) = p ++ skipn (length p) (skipn (ooff f) (odat f)) ->
  if (length (odat f) <=? ooff f + length p)%nat
  then InvB q 0 (ETx p :: l)
  else InvB (OF (oid f) (odat f) (ooff f + length p) :: q) 6 (ETx p :: l).
Proof.
  intros f q l p (H1 & H2 & H3) Hp Sp.
  destruct H2 as (A1 & A2 & A3 & A4). specialize (A3 eq_refl).
  rewrite <- skipn_add in Sp.
  assert (E : encs (owed l) =
    (txs l ++ p) ++ skipn (ooff f + length p) (odat f) ++ flat_map wire q).
  { rewrite H1. cbn [pend]. rewrite Sp.
    change (skipn 6 (hdr_out f)) with (@nil N). cbn [app].
    now rewrite <- !app_assoc. }
  destruct (length (odat f) <=? ooff f + length p)%nat eqn:F.
  - apply Nat.leb_le in F. destruct (pend_zero q A4) as [P2 P3].
    split; [|split]; auto. cbn [owed txs]. rewrite P2, E.
    rewrite skipn_all2 by lia. reflexivity.
  - apply Nat.leb_gt in F. split; [|split]; auto.
    cbn [wfq ooff odat]. split; [lia|]. split; [lia|]. split; auto.
Qed.

Lemma inv_tx : forall s p q w, Inv s -> InvB q w (ETx p :: log s) ->
  Inv (set_out (seen (ETx p) s) q w).
Proof.
  intros s p q w [A B C L I D H] B'.
  constructor; cbn [set_out seen chans next log outq hw hdr icmd ich ilen ibuf dead]; auto.
  - cbn. auto.
  - apply idle_ev. exact Coq.Init.Logic.I.
  - intros [X|X]; [discriminate|auto].
Qed.

Lemma wloop_good : forall ws k s, Inv s -> Good (wloop ws k s).
Proof.
  induction ws as [|a ws IH]; intros k s Hs.
  - cbn. destruct (outq s); now left.
  - cbn [wloop]. pose proof (iB _ Hs) as B. destruct (outq s) as [|f q] eqn:Eq; [now left|].
    destruct a as [n| |]; [|now left|right; now apply die_hup].
    destruct (hw s <? 6)%nat eqn:Ew.
    + apply Nat.ltb_lt in Ew.
      destruct (firstn (N.to_nat n) (skipn (hw s) (hdr_out f))) as [|x xs] eqn:Ef;
        [right; now apply die_hup|].
      apply firstn_split in Ef.
      destruct (B_hdr _ _ _ _ (x :: xs) B Ew ltac:(intro; discriminate) Ef) as [_ G].
      destruct ((hw s + length (x :: xs) =? 6) && (length (odat f) <=? ooff f))%nat.
      * pose proof (inv_tx _ _ _ _ Hs G). destruct k as [|[|k]]; try (now left).
        now apply IH.
      * apply IH. now apply inv_tx.
    + apply Nat.ltb_ge in Ew.
      assert (hw s = 6%nat) as W6 by (destruct B as (_ & (B & _) & _); lia).
      destruct (firstn (N.to_nat n) (skipn (ooff f) (odat f))) as [|x xs] eqn:Ef;
        [right; now apply die_hup|].
      apply firstn_split in Ef. rewrite W6 in *.
      pose proof (B_pay _ _ _ (x :: xs) B ltac:(intro; discriminate) Ef) as G.
      destruct (length (odat f) <=? ooff f + length (x :: xs))%nat.
      * pose proof (inv_tx _ _ _ _ Hs G). destruct k as [|[|k]]; try (now left).
        now apply IH.
      * apply IH. now apply inv_tx.
Qed.

Lemma main_good : forall s rs ws, Good s -> Forall byte_ans rs -> Good (main s rs ws).
Proof.
  intros s rs ws G Hb. unfold main. destruct (dead s) eqn:D; auto.
  destruct G as [G|G]; [|destruct G; congruence].
  destruct (rloop_good rs 500 s G Hb) as [H|H].
  - rewrite (iD _ H). now apply wloop_good.
  - rewrite (dD _ H). now right.
Qed.

(** * The handler of a channel *)

Lemma inv_snip : forall s c n, Inv s -> own (chans s c) = Some n ->
  fits (EClose n Quiet) (log s) -> Inv (snip s c n Quiet).
Proof.
  intros s c n [A B C L I D H] Ho F.
  constructor; cbn -[fits]; auto.
  - exact (A_close _ _ _ _ _ Quiet A Ho).
  - apply idle_ev. exact Coq.Init.Logic.I.
  - intros [X|X]; [discriminate|auto].
Qed.

Lemma inv_shutdown : forall s c n, Inv s -> own (chans s c) = Some n ->
  fits (EClose n Loud) (log s) -> Inv (shutdown s c n).
Proof.
  intros s c n [A B C L I D H] Ho F.
  pose proof (chan_owner _ _ _ _ _ A Ho) as Ow.
  destruct (owner_chan _ _ _ _ _ A Ow) as [Lc Cc].
  constructor; cbn -[fits]; auto.
  - exact (A_close _ _ _ _ _ Loud A Ho).
  - apply (B_append _ _ (log s) _ true c s_shutdown); auto.
    + cbn. lia.
    + cbn [owed]. now rewrite Cc.
  - apply idle_ev. exact Coq.Init.Logic.I.
  - intros [X|X]; [discriminate|auto].
Qed.

Lemma inv_end : forall s n c, Inv s -> own (chans s c) = Some n ->
  Inv (shutdown (seen (EEnd n) s) c n).
Proof.
  intros s n c Hs Ho. destruct Hs as [A B C L I D H].
  pose proof (chan_owner _ _ _ _ _ A Ho) as Ow.
  apply inv_shutdown; auto.
  - constructor; cbn -[fits]; auto.
    + split; auto. exists c. exact Ow.
    + apply idle_ev. exact Coq.Init.Logic.I.
    + intros [X|X]; [discriminate|auto].
  - cbn [fits seen log]. split; eauto.
Qed.

Lemma cwrite_inv : forall ws c n w s s' r,
  Inv s -> own (chans s c) = Some n -> cwrite ws c n w s = (s', r) ->
  Inv s' /\ (r <> CGone -> own (chans s' c) = Some n).
Proof.
  induction ws as [|a ws IH]; intros c n w s s' r Hs Ho E; cbn [cwrite] in E;
    destruct (inq (chans s c)) as [|f q] eqn:Eq;
    try (injection E as <- <-; now auto).
  all: pose proof (iA _ Hs) as A.
  all: pose proof (chan_owner _ _ _ _ _ A Ho) as Ow.
  all: assert (Stop : xcmd f = true \/ xdat f = [] ->
      ~ is_cmd (tof c f) s_reset -> ~ is_cmd (tof c f) s_close ->
      Inv (shutdown s c n)).
  1,3: intros St N1 N2; apply inv_shutdown; auto; cbn [fits]; split; [now exists c|];
      right; destruct (A_stop _ _ _ _ _ _ _ A Ho Eq St) as (ds & rest & S1 & S2 & S3 & S4);
      exists ds, (tof c f), rest; auto 10.
  all: assert (Q : xcmd f = true -> is_cmd (tof c f) s_reset \/ is_cmd (tof c f) s_close ->
      Inv (snip s c n Quiet)).
  1,3: intros St N1; apply inv_snip; auto; cbn [fits]; split; [now exists c|];
      destruct (A_stop _ _ _ _ _ _ _ A Ho Eq (or_introl St)) as (ds & rest & S1 & S2 & S3 & S4);
      exists ds, (tof c f), rest; auto 10.
  all: destruct (xcmd f) eqn:Ec.
  1,3: rewrite !(ifcmd_is_cmdb true c (xdat f)) in E;
       assert (Et : Fr true c (xdat f) = tof c f) by (unfold tof; now rewrite Ec);
       rewrite Et in E;
       pose proof (is_cmdb_iff (tof c f) s_reset) as I1;
       pose proof (is_cmdb_iff (tof c f) s_close) as I2;
       destruct (is_cmdb (tof c f) s_reset);
         [injection E as <- <-; split; [apply Q; tauto|congruence]|];
       destruct (is_cmdb (tof c f) s_close);
         [injection E as <- <-; split; [apply Q; tauto|congruence]|];
       assert (N1 : ~ is_cmd (tof c f) s_reset) by (intro X; apply I1 in X; discriminate);
       assert (N2 : ~ is_cmd (tof c f) s_close) by (intro X; apply I2 in X; discriminate);
       destruct (is_cmdb (tof c f) s_shutdown);
         injection E as <- <-; split; try congruence; apply Stop; auto.
  all: destruct (xdat f) as [|y ys] eqn:Ed;
    [injection E as <- <-; split; [apply Stop; auto; intros [X _]; cbn in X; congruence|congruence]|].
  - injection E as <- <-. auto.
  - destruct a as [k| |].
    + destruct (firstn (N.to_nat k) (skipn (xoff f) (y :: ys))) as [|x xs] eqn:Ef.
      * injection E as <- <-. split; [now apply inv_end|congruence].
      * apply firstn_split in Ef.
        destruct (A_deliver _ _ _ _ _ f q (x :: xs) A Ho Eq Ec
                    ltac:(congruence) ltac:(discriminate)) as [A' F'].
        { rewrite Ed. eauto. }
        rewrite Ed, Ec in A'.
        destruct Hs as [_ B C L I D H].
        assert (forall z, InvA (fun d => if d =? c then Ch (own (chans s c)) z else chans s d)
                     (next s) (EDeliv n (x :: xs) :: log s) ->
          Inv (set_chan (seen (EDeliv n (x :: xs)) s) c (Ch (own (chans s c)) z))) as G.
        { intros z Az. constructor; cbn -[fits]; auto.
          - apply idle_ev. exact Coq.Init.Logic.I.
          - intros [X|X]; [discriminate|auto]. }
        destruct (xoff f + length (x :: xs) =? length (y :: ys))%nat.
        -- eapply IH; [apply G, A'| |exact E].
           cbn. now rewrite N.eqb_refl.
        -- eapply IH; [apply G, A'| |exact E].
           cbn. now rewrite N.eqb_refl.
    + injection E as <- <-. auto.
    + injection E as <- <-. split; [now apply inv_end|congruence].
Qed.

Lemma inv_read : forall s c n p, Inv s -> own (chans s c) = Some n ->
  p <> [] -> N.of_nat (length p) <= 65530 ->
  Inv (append_out (seen (ERead n p) s) c p).
Proof.
  intros s c n p [A B C L I D H] Ho Hp Lp.
  pose proof (chan_owner _ _ _ _ _ A Ho) as Ow.
  destruct (owner_chan _ _ _ _ _ A Ow) as [Lc Cc].
  constructor; cbn -[fits]; auto.
  - apply (B_append _ _ (log s) _ false c p); auto.
    cbn [owed]. now rewrite Cc.
  - split; [|split; auto]. cbn [fits]. eauto.
  - apply idle_ev. exact Coq.Init.Logic.I.
  - intros [X|X]; [discriminate|auto].
Qed.

Lemma cloop_inv : forall fuel ws rs c n s,
  Inv s -> own (chans s c) = Some n -> Inv (cloop fuel ws rs c n s).
Proof.
  induction fuel as [|fuel IH]; intros ws rs c n s Hs Ho; [exact Hs|].
  cbn [cloop]. destruct (cwrite ws c n false s) as [s1 r] eqn:E.
  destruct (cwrite_inv _ _ _ _ _ _ _ Hs Ho E) as [Hs1 Ho1].
  destruct r as [ws' wrote|]; [|exact Hs1].
  specialize (Ho1 ltac:(discriminate)).
  destruct rs as [|[l ok| |] rs'].
  - destruct wrote; auto.
  - pose proof (firstn_length (N.to_nat max_frame) l) as Lf.
    destruct (firstn (N.to_nat max_frame) l) as [|x xs].
    + now apply inv_end.
    + apply IH.
      * apply inv_read; auto; [discriminate|]. unfold max_frame in Lf. lia.
      * exact Ho1.
  - destruct wrote; auto.
  - now apply inv_end.
Qed.

(** * Opening a connection *)

Lemma find_free_spec : forall s k i,
  match find_free s k i with
  | Some c =>
      c < 512 /\ own (chans s c) = None /\
      exists j, i <= j < i + N.of_nat k /\ c = (last s + j + 1) mod 512 /\
        forall m, i <= m < j -> own (chans s ((last s + m + 1) mod 512)) <> None
  | None =>
      forall m, i <= m < i + N.of_nat k ->
        own (chans s ((last s + m + 1) mod 512)) <> None
  end.
Proof.
  intros s k. induction k as [|k IH]; intro i; cbn [find_free].
  - intros m Hm. lia.
  - unfold max_channels. destruct (own (chans s ((last s + i + 1) mod 512))) as [n|] eqn:E.
    + specialize (IH (i + 1)). destruct (find_free s k (i + 1)) as [c|].
      * destruct IH as (H1 & H2 & j & H3 & H4 & H5). split; auto. split; auto.
        exists j. split; [lia|]. split; auto.
        intros m Hm. destruct (N.eq_dec m i) as [->|]; [congruence|]. apply H5. lia.
      * intros m Hm. destruct (N.eq_dec m i) as [->|]; [congruence|]. apply IH. lia.
    + split; [apply N.mod_lt; lia|]. split; auto. exists i. split; [lia|].
      split; auto. intros m Hm. lia.
Qed.

Lemma connect_inv : forall s ok, Inv s -> Inv (fst (connect s ok)).
Proof.
  intros s ok Hs. unfold connect. rewrite (iD _ Hs).
  pose proof (find_free_spec s 512 0) as F.
  destruct (find_free s 512 0) as [c|]; [|exact Hs].
  destruct F as (F1 & F2 & _). destruct Hs as [A B C L I D H].
  destruct ok.
  - cbn [fst]. constructor; cbn -[fits]; auto.
    + apply A_open; auto.
    + apply (B_append _ _ (log s) _ true c s_connect); auto. cbn. lia.
    + split; [|split; auto]. cbn [fits].
      assert (Ow : owner (log s) c = None)
        by (destruct A as (A & _); destruct (A c); congruence).
      split; auto. split; auto. destruct A as (_ & _ & A). apply A. lia.
    + apply idle_ev. exact Coq.Init.Logic.I.
    + intros [X|X]; [discriminate|auto].
  - cbn [fst]. constructor; cbn -[fits]; auto.
Qed.

(** * Any calls *)

Lemma step_good : forall s o, Good s -> byte_op o -> Good (step s o).
Proof.
  intros s o G Hb. destruct o as [rs ws|c ws rs|ok]; cbn [step].
  - now apply main_good.
  - unfold chanh. destruct G as [G|G].
    + destruct (own (chans s c)) as [n|] eqn:Ho; [|now left].
      left. now apply cloop_inv.
    + rewrite (dW _ G). now right.
  - destruct G as [G|G].
    + left. now apply connect_inv.
    + right. unfold connect. now rewrite (dD _ G).
Qed.

Lemma run_good : forall os s, Good s -> Forall byte_op os -> Good (run os s).
Proof.
  induction os as [|o os IH]; intros s G Hb; [exact G|].
  inversion Hb; subst. cbn [run]. apply IH; auto. now apply step_good.
Qed.

Lemma run_init : forall os, Forall byte_op os -> Good (run os init).
Proof. intros. apply run_good; auto. left. apply inv_init. Qed.
