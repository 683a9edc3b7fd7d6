From Coq Require Import List NArith Arith Bool Lia ZifyBool ZifyNat ZifyN.
From Verif Require Import Rsock.Model Rsock.Spec Rsock.Proofs Rsock.Proofs2
     Rsock.Proofs3 Rsock.Proofs4 Rsock.Proofs5 Rsock.Proofs6.
Import ListNotations.
Local Open Scope N_scope.

(** * Errors are acted on *)

Lemma die_is_dead : forall s, dead (die s) = true.
Proof. intro s. unfold die, mark_dead. reflexivity. Qed.

Lemma main_read_error : forall s rs ws, dead s = false ->
  dead (step s (OMain (REnd :: rs) ws)) = true.
Proof.
  intros s rs ws D. cbn [step]. unfold main. cbn [rloop]. rewrite D.
  now rewrite die_is_dead, die_is_dead.
Qed.

Lemma main_write_error : forall s ws, Good s -> dead s = false ->
  txs (log s) <> encs (owed (log s)) ->
  dead (step s (OMain [] (WErr :: ws))) = true.
Proof.
  intros s ws [G|G] D X; [|rewrite (dD _ G) in D; discriminate].
  cbn [step]. unfold main. cbn [rloop]. rewrite D. cbn [wloop].
  destruct (outq s) as [|f q] eqn:E; [|apply die_is_dead].
  exfalso. destruct (iB _ G) as (B1 & _). rewrite E in B1. cbn [pend] in B1.
  rewrite app_nil_r in B1. congruence.
Qed.

Lemma good_own : forall s c, Good s -> own (chans s c) = owner (log s) c.
Proof.
  intros s c [G|G]; [destruct (iA _ G) as (A & _); now destruct (A c)|].
  now rewrite (dO _ G), (dW _ G).
Qed.

Lemma snip_free : forall s c n h, own (chans (snip s c n h) c) = None.
Proof. intros. unfold snip, set_chan. cbn. now rewrite N.eqb_refl. Qed.

Lemma shutdown_free : forall s c n, own (chans (shutdown s c n) c) = None.
Proof. intros. unfold shutdown. apply snip_free. Qed.

Lemma stop_gone : forall s c n f q ws w,
  inq (chans s c) = f :: q -> xcmd f = true \/ xdat f = [] ->
  exists s', cwrite ws c n w s = (s', CGone) /\ own (chans s' c) = None.
Proof.
  intros s c n f q ws w E St.
  destruct (xcmd f) eqn:Ec.
  - destruct ws; cbn [cwrite]; rewrite E, Ec;
      destruct (ifcmd true (xdat f) s_reset), (ifcmd true (xdat f) s_close),
               (ifcmd true (xdat f) s_shutdown);
      eexists; (split; [reflexivity|]); solve [apply snip_free|apply shutdown_free].
  - destruct St as [St|St]; [congruence|].
    destruct ws; cbn [cwrite]; rewrite E, Ec, St;
      eexists; (split; [reflexivity|]); apply shutdown_free.
Qed.

Lemma empty_ws : forall s c n w,
  (exists s', cwrite [] c n w s = (s', CGone) /\ own (chans s' c) = None) \/
  cwrite [] c n w s = (s, CGo [] w).
Proof.
  intros s c n w. destruct (inq (chans s c)) as [|f q] eqn:E.
  - right. cbn [cwrite]. now rewrite E.
  - destruct (xcmd f) eqn:Ec; [left; eapply stop_gone; eauto|].
    destruct (xdat f) as [|y ys] eqn:Ed; [left; eapply stop_gone; eauto|].
    right. cbn [cwrite]. now rewrite E, Ec, Ed.
Qed.

Lemma chan_end : forall s c rs, Good s ->
  owner (log (step s (OChan c [] (REnd :: rs)))) c = None.
Proof.
  intros s c rs G. rewrite <- good_own by (apply step_good; [exact G|exact I]).
  cbn [step]. unfold chanh. destruct (own (chans s c)) as [n|] eqn:Ho; [|exact Ho].
  cbn [length Nat.add cloop].
  destruct (empty_ws s c n false) as [(s' & E & O)|E]; rewrite E; [exact O|].
  apply shutdown_free.
Qed.

(** What the first frame waiting for a local connection is. *)
Lemma head_is : forall s c n ds f rest,
  Inv s -> own (chans s c) = Some n ->
  came (log s) n = ds ++ f :: rest -> Forall data ds -> ~ data f ->
  given (log s) n = bytes ds ->
  exists g q, inq (chans s c) = g :: q /\ (xcmd g = true \/ xdat g = []).
Proof.
  intros s c n ds f rest G Ho E Hd Nf Gv.
  destruct (iA _ G) as (A1 & _). destruct (A1 c) as [_ A2]. rewrite Ho in A2.
  destruct A2 as (_ & _ & ds' & D1 & D2 & D3 & D4).
  destruct (inq (chans s c)) as [|g q] eqn:Eq.
  - exfalso. cbn [map] in D1. rewrite app_nil_r in D1. rewrite D1 in E.
    rewrite E in D2. apply Forall_app in D2. destruct D2 as [_ D2].
    inversion D2; contradiction.
  - exists g, q. split; auto.
    destruct (xcmd g) eqn:Ec; [now left|]. right.
    destruct (xdat g) as [|y ys] eqn:Ed; auto. exfalso.
    cbn [map] in D1. rewrite E in D1. symmetry in D1.
    assert (Dg : data (tof c g)).
    { split; cbn; [exact Ec|]. rewrite Ed. discriminate. }
    replace (ds' ++ tof c g :: map (tof c) q)
      with ((ds' ++ [tof c g]) ++ map (tof c) q) in D1
      by (rewrite <- app_assoc; reflexivity).
    assert (D2' : Forall data (ds' ++ [tof c g]))
      by (apply Forall_app; split; auto).
    destruct (data_prefix _ _ _ _ _ D2' D1 Nf) as [z Z].
    rewrite Gv, Z, !bytes_app, <- !app_assoc in D3.
    apply app_inv_head in D3. apply (f_equal (@length N)) in D3.
    cbn [partial bytes flat_map tof fdat] in D3.
    rewrite !app_length, firstn_length in D3. cbn [length] in D3.
    cbn [offs] in D4. destruct D4 as [[Z0|[_ Lt]] _].
    + rewrite Z0, Ed in D3. cbn [length] in D3. lia.
    + lia.
Qed.

Lemma chan_stops : forall s c n ds f rest ws rs,
  Good s -> owner (log s) c = Some n ->
  came (log s) n = ds ++ f :: rest -> Forall data ds -> ~ data f ->
  given (log s) n = bytes ds ->
  owner (log (step s (OChan c ws rs))) c = None.
Proof.
  intros s c n ds f rest ws rs G Ow E Hd Nf Gv.
  rewrite <- good_own by (apply step_good; [exact G|exact I]).
  rewrite <- good_own in Ow by exact G.
  destruct G as [G|G]; [|rewrite (dW _ G) in Ow; discriminate].
  destruct (head_is _ _ _ _ _ _ G Ow E Hd Nf Gv) as (g & q & Eq & St).
  cbn [step]. unfold chanh. rewrite Ow. cbn [cloop].
  destruct (stop_gone s c n g q ws false Eq St) as (s' & E1 & O1).
  now rewrite E1.
Qed.

Lemma chan_write_error : forall s c n ds rest ws rs,
  Good s -> owner (log s) c = Some n ->
  came (log s) n = ds ++ rest -> Forall data ds ->
  (length (given (log s) n) < length (bytes ds))%nat ->
  owner (log (step s (OChan c (WErr :: ws) rs))) c = None.
Proof.
  intros s c n ds rest ws rs G Ow E Hd L.
  rewrite <- good_own by (apply step_good; [exact G|exact I]).
  rewrite <- good_own in Ow by exact G.
  destruct G as [G|G]; [|rewrite (dW _ G) in Ow; discriminate].
  cbn [step]. unfold chanh. rewrite Ow. cbn [cloop].
  destruct (inq (chans s c)) as [|g q] eqn:Eq.
  - exfalso. destruct (iA _ G) as (A1 & _). destruct (A1 c) as [_ A2]. rewrite Ow in A2.
    destruct A2 as (_ & _ & ds' & D1 & D2 & D3 & D4). rewrite Eq in D1, D3.
    cbn [map partial] in D1, D3. rewrite app_nil_r in D1, D3.
    rewrite D3, <- D1, E, bytes_app, app_length in L. lia.
  - destruct (xcmd g) eqn:Ec.
    { destruct (stop_gone s c n g q (WErr :: ws) false Eq (or_introl Ec)) as (s' & E1 & O1).
      now rewrite E1. }
    destruct (xdat g) as [|y ys] eqn:Ed.
    { destruct (stop_gone s c n g q (WErr :: ws) false Eq (or_intror Ed)) as (s' & E1 & O1).
      now rewrite E1. }
    cbn [cwrite]. rewrite Eq, Ec, Ed. apply shutdown_free.
Qed.

Lemma chan_read : forall s c n l ok,
  Good s -> owner (log s) c = Some n -> Forall data (came (log s) n) -> l <> [] ->
  log (step s (OChan c [] [RGot l ok])) =
    ERead n (firstn (N.to_nat 65530) l) :: log s.
Proof.
  intros s c n l ok G Ow Hd Hl.
  rewrite <- good_own in Ow by exact G.
  destruct G as [G|G]; [|rewrite (dW _ G) in Ow; discriminate].
  cbn [step]. unfold chanh. rewrite Ow. cbn [length Nat.add].
  assert (St : forall s', inq (chans s' c) = inq (chans s c) -> forall w,
             cwrite [] c n w s' = (s', CGo [] w)).
  { intros s' Es w. cbn [cwrite]. rewrite Es.
    destruct (inq (chans s c)) as [|g q] eqn:Eq; auto.
    destruct (iA _ G) as (A1 & _). destruct (A1 c) as [_ A2]. rewrite Ow in A2.
    destruct A2 as (_ & _ & ds' & D1 & _). rewrite Eq in D1. rewrite D1 in Hd.
    apply Forall_app in Hd. destruct Hd as [_ Hd]. cbn [map] in Hd.
    inversion Hd as [|g' q' H1 H2]; subst. destruct H1 as [H1 H3]. cbn in H1, H3. rewrite H1.
    destruct (xdat g); congruence. }
  cbn [cloop]. rewrite (St s eq_refl). change max_frame with 65530.
  assert (Z : firstn (N.to_nat 65530) l <> []).
  { apply firstn_some; auto. lia. }
  destruct (firstn (N.to_nat 65530) l) as [|x xs]; [congruence|].
  rewrite St by reflexivity. reflexivity.
Qed.
