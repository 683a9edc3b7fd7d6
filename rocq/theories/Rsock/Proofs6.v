From Coq Require Import List NArith Arith Bool Lia ZifyBool ZifyNat ZifyN.
From Verif Require Import Rsock.Model Rsock.Spec Rsock.Proofs Rsock.Proofs2
     Rsock.Proofs3 Rsock.Proofs4 Rsock.Proofs5.
Import ListNotations.
Local Open Scope N_scope.

(** * Histories only grow *)

Definition grows (s s' : ep) : Prop := exists e, log s' = e ++ log s.

Lemma grows_refl : forall s, grows s s.
Proof. intro s. now exists []. Qed.

Lemma grows_trans : forall a b c, grows a b -> grows b c -> grows a c.
Proof. intros a b c [x X] [y Y]. exists (y ++ x). rewrite Y, X. apply app_assoc. Qed.

Lemma grows_eq : forall s s', log s' = log s -> grows s s'.
Proof. intros s s' E. now exists []. Qed.

Lemma grows_one : forall s s' e, log s' = e :: log s -> grows s s'.
Proof. intros s s' e E. now exists [e]. Qed.

Lemma grows_two : forall s s' e f, log s' = e :: f :: log s -> grows s s'.
Proof. intros s s' e f E. now exists [e; f]. Qed.

Lemma close_all_grows : forall cs s, grows s (close_all cs s).
Proof.
  induction cs as [|c cs IH]; intro s; [apply grows_refl|].
  cbn [close_all]. eapply grows_trans; [|apply IH].
  destruct (own (chans s c)); [eapply grows_one; reflexivity|apply grows_refl].
Qed.

Lemma mark_dead_log : forall s, log (mark_dead s) = log s.
Proof. reflexivity. Qed.

Lemma die_grows : forall s, grows s (die s).
Proof.
  intro s. unfold die. eapply grows_trans; [apply close_all_grows|].
  apply grows_eq, mark_dead_log.
Qed.

Lemma die_hup_grows : forall s, grows s (die (seen EHup s)).
Proof.
  intro s. apply (grows_trans _ (seen EHup s)); [|apply die_grows].
  now apply (grows_one _ _ EHup).
Qed.

Lemma grows_step : forall s1 s2 s e, log s1 = e :: log s -> grows s1 s2 -> grows s s2.
Proof. intros s1 s2 s e E G. eapply grows_trans; [eapply grows_one; exact E|exact G]. Qed.

Lemma wloop_grows : forall ws k s, grows s (wloop ws k s).
Proof.
  induction ws as [|a ws IH]; intros k s; cbn [wloop];
    destruct (outq s) as [|f q]; try apply grows_refl.
  destruct a as [n| |]; [|apply grows_refl|apply die_hup_grows].
  destruct (hw s <? 6)%nat.
  - destruct (firstn (N.to_nat n) (skipn (hw s) (hdr_out f))) as [|x xs];
      [apply die_hup_grows|].
    destruct (_ && _)%nat.
    + destruct k as [|[|k]]; try (eapply grows_one; reflexivity).
      eapply grows_step; [|apply IH]; reflexivity.
    + eapply grows_step; [|apply IH]; reflexivity.
  - destruct (firstn (N.to_nat n) (skipn (ooff f) (odat f))) as [|x xs];
      [apply die_hup_grows|].
    destruct (_ <=? _)%nat.
    + destruct k as [|[|k]]; try (eapply grows_one; reflexivity).
      eapply grows_step; [|apply IH]; reflexivity.
    + eapply grows_step; [|apply IH]; reflexivity.
Qed.

Lemma cwrite_grows : forall ws c n w s, grows s (fst (cwrite ws c n w s)).
Proof.
  induction ws as [|a ws IH]; intros c n w s; cbn [cwrite];
    destruct (inq (chans s c)) as [|f q]; try apply grows_refl;
    (destruct (xcmd f);
     [repeat (match goal with |- context [if ?b then _ else _] => destruct b end);
      cbn [fst]; eapply grows_one; reflexivity|]);
    (destruct (xdat f) as [|y ys]; [cbn [fst]; eapply grows_one; reflexivity|]).
  - apply grows_refl.
  - destruct a as [k| |]; [|apply grows_refl|cbn [fst]; eapply grows_two; reflexivity].
    destruct (firstn (N.to_nat k) (skipn (xoff f) (y :: ys))) as [|x xs];
      [cbn [fst]; eapply grows_two; reflexivity|].
    destruct (_ =? _)%nat; (eapply grows_step; [|apply IH]; reflexivity).
Qed.

Lemma cloop_grows : forall fuel ws rs c n s, grows s (cloop fuel ws rs c n s).
Proof.
  induction fuel as [|fuel IH]; intros ws rs c n s; [apply grows_refl|].
  cbn [cloop]. pose proof (cwrite_grows ws c n false s) as G.
  destruct (cwrite ws c n false s) as [s1 [ws' wrote|]]; cbn [fst] in G; auto.
  eapply grows_trans; [exact G|].
  destruct rs as [|[l ok| |] rs'].
  - destruct wrote; [apply IH|apply grows_refl].
  - destruct (firstn (N.to_nat max_frame) l) as [|x xs].
    + eapply grows_two; reflexivity.
    + eapply grows_step; [|apply IH]; reflexivity.
  - destruct wrote; [apply IH|apply grows_refl].
  - eapply grows_two; reflexivity.
Qed.

Lemma cloop_after : forall fuel ws rs c n s,
  grows (fst (cwrite ws c n false s)) (cloop (S fuel) ws rs c n s).
Proof.
  intros fuel ws rs c n s. cbn [cloop].
  destruct (cwrite ws c n false s) as [s1 [ws' wrote|]]; cbn [fst];
    [|apply grows_refl].
  destruct rs as [|[l ok| |] rs'].
  - destruct wrote; [apply cloop_grows|apply grows_refl].
  - destruct (firstn (N.to_nat max_frame) l) as [|x xs].
    + eapply grows_two; reflexivity.
    + eapply grows_step; [|apply cloop_grows]; reflexivity.
  - destruct wrote; [apply cloop_grows|apply grows_refl].
  - eapply grows_two; reflexivity.
Qed.

Lemma txs_mono : forall e l, (length (txs l) <= length (txs (e ++ l)))%nat.
Proof.
  induction e as [|a e IH]; intro l; [cbn; lia|].
  specialize (IH l). destruct a; cbn [app txs]; try assumption.
  rewrite app_length. lia.
Qed.

Lemma given_mono : forall e l n, (length (given l n) <= length (given (e ++ l) n))%nat.
Proof.
  induction e as [|a e IH]; intros l n; [cbn; lia|].
  specialize (IH l n). destruct a; cbn [app given]; try assumption.
  rewrite app_length. lia.
Qed.

(** * Something goes out whenever the other side takes something *)

Lemma firstn_some : forall k (l : list N), (0 < k)%nat -> l <> [] -> firstn k l <> [].
Proof. intros [|k] [|x l] Hk Hl; cbn; try lia; congruence. Qed.

Lemma wloop_progress : forall s k ws b,
  Inv s -> outq s <> [] -> 0 < k ->
  (length (txs (log s)) < length (txs (log (wloop (WTake k :: ws) b s))))%nat.
Proof.
  intros s k ws b Hs Hq Hk. destruct (iB _ Hs) as (_ & W & _).
  cbn [wloop]. destruct (outq s) as [|f q]; [congruence|].
  destruct W as (W1 & W2 & W3 & _).
  assert (Fin : forall x xs s1, log s1 = ETx (x :: xs) :: log s ->
    forall s2, grows s1 s2 -> (length (txs (log s)) < length (txs (log s2)))%nat).
  { intros x xs s1 E s2 [e G]. rewrite G, E.
    pose proof (txs_mono e (ETx (x :: xs) :: log s)) as M.
    cbn [txs] in M. rewrite app_length in M. cbn [length] in M. lia. }
  destruct (hw s <? 6)%nat eqn:Ew.
  - apply Nat.ltb_lt in Ew.
    assert (Z : firstn (N.to_nat k) (skipn (hw s) (hdr_out f)) <> []).
    { apply firstn_some; [lia|]. intro X. apply (f_equal (@length N)) in X.
      rewrite skipn_length, hdr_out_len in X. cbn [length] in X. lia. }
    destruct (firstn (N.to_nat k) (skipn (hw s) (hdr_out f))) as [|x xs]; [congruence|].
    destruct (_ && _)%nat.
    + destruct b as [|[|b]].
      * eapply Fin; [|apply grows_refl]; reflexivity.
      * eapply Fin; [|apply grows_refl]; reflexivity.
      * eapply Fin; [|apply wloop_grows]; reflexivity.
    + eapply Fin; [|apply wloop_grows]; reflexivity.
  - apply Nat.ltb_ge in Ew.
    assert (Z : firstn (N.to_nat k) (skipn (ooff f) (odat f)) <> []).
    { apply firstn_some; [lia|]. intro X. apply (f_equal (@length N)) in X.
      rewrite skipn_length in X. cbn [length] in X. lia. }
    destruct (firstn (N.to_nat k) (skipn (ooff f) (odat f))) as [|x xs]; [congruence|].
    destruct (_ <=? _)%nat.
    + destruct b as [|[|b]].
      * eapply Fin; [|apply grows_refl]; reflexivity.
      * eapply Fin; [|apply grows_refl]; reflexivity.
      * eapply Fin; [|apply wloop_grows]; reflexivity.
    + eapply Fin; [|apply wloop_grows]; reflexivity.
Qed.

Lemma main_progress : forall s k ws,
  Good s -> dead s = false -> txs (log s) <> encs (owed (log s)) -> 0 < k ->
  (length (txs (log s)) <
   length (txs (log (step s (OMain [] (WTake k :: ws))))))%nat.
Proof.
  intros s k ws [G|G] D X Hk; [|rewrite (dD _ G) in D; discriminate].
  cbn [step]. unfold main. cbn [rloop]. rewrite D.
  apply wloop_progress; auto. intro E. destruct (iB _ G) as (B1 & _).
  rewrite E in B1. cbn [pend] in B1. rewrite app_nil_r in B1. congruence.
Qed.

Lemma data_prefix : forall a x b s y,
  Forall data a -> a ++ x = b ++ s :: y -> ~ data s -> exists z, b = a ++ z.
Proof.
  induction a as [|f a IH]; intros x b s y Ha E Ns.
  - now exists b.
  - inversion Ha; subst. destruct b as [|g b]; cbn in E; injection E as <- E.
    + contradiction.
    + destruct (IH _ _ _ _ H2 E Ns) as [z ->]. now exists z.
Qed.

Lemma chan_progress : forall s c n k ws rs ds rest,
  Good s -> owner (log s) c = Some n -> 0 < k ->
  came (log s) n = ds ++ rest -> Forall data ds ->
  (length (given (log s) n) < length (bytes ds))%nat ->
  (length (given (log s) n) <
   length (given (log (step s (OChan c (WTake k :: ws) rs))) n))%nat.
Proof.
  intros s c n k ws rs ds rest [G|G] Ow Hk E Hd L;
    [|rewrite (dO _ G) in Ow; discriminate].
  pose proof (iA _ G) as A.
  assert (Ho : own (chans s c) = Some n)
    by (destruct A as (A & _); destruct (A c); congruence).
  cbn [step]. unfold chanh. rewrite Ho.
  cbn [length Nat.add].
  destruct (cloop_after (S (length ws + length rs)) (WTake k :: ws) rs c n s) as [e0 E0].
  rewrite E0. eapply Nat.lt_le_trans; [|apply given_mono]. clear e0 E0.
  pose proof A as (A1 & _). destruct (A1 c) as [_ A2]. rewrite Ho in A2.
  destruct A2 as (_ & _ & ds' & D1 & D2 & D3 & D4).
  destruct (inq (chans s c)) as [|f q] eqn:Eq.
  { cbn [map partial] in *. rewrite app_nil_r in D1, D3. exfalso.
    rewrite D3 in L. rewrite <- D1, E, bytes_app, app_length in L. lia. }
  destruct (xcmd f) eqn:Ec.
  { exfalso. destruct (A_stop _ _ _ _ _ _ _ A Ho Eq (or_introl Ec)) as (u & v & S1 & S2 & S3 & S4).
    rewrite S1 in E. symmetry in E. destruct (data_prefix _ _ _ _ _ Hd E S4) as [z ->].
    rewrite S3, bytes_app, app_length in L. lia. }
  destruct (xdat f) as [|y ys] eqn:Ed.
  { exfalso. destruct (A_stop _ _ _ _ _ _ _ A Ho Eq (or_intror Ed)) as (u & v & S1 & S2 & S3 & S4).
    rewrite S1 in E. symmetry in E. destruct (data_prefix _ _ _ _ _ Hd E S4) as [z ->].
    rewrite S3, bytes_app, app_length in L. lia. }
  cbn [offs] in D4. destruct D4 as [D4 _].
  assert (Lo : (xoff f < length (xdat f))%nat).
  { destruct D4 as [->|[_ D4]]; auto. rewrite Ed. cbn. lia. }
  cbn [cwrite]. rewrite Eq, Ec, Ed. rewrite Ed in Lo.
  assert (Z : firstn (N.to_nat k) (skipn (xoff f) (y :: ys)) <> []).
  { apply firstn_some; [lia|]. intro X. apply (f_equal (@length N)) in X.
    rewrite skipn_length in X. cbn [length] in X, Lo. lia. }
  destruct (firstn (N.to_nat k) (skipn (xoff f) (y :: ys))) as [|x xs]; [congruence|].
  assert (Fin : forall s1, log s1 = EDeliv n (x :: xs) :: log s ->
    forall s2, grows s1 s2 -> (length (given (log s) n) < length (given (log s2) n))%nat).
  { intros s1 E1 s2 [e G2]. rewrite G2, E1.
    pose proof (given_mono e (EDeliv n (x :: xs) :: log s) n) as M.
    cbn [given] in M. rewrite N.eqb_refl, app_length in M. cbn [length] in M. lia. }
  destruct (_ =? _)%nat; (eapply Fin; [|apply cwrite_grows]; reflexivity).
Qed.

(** * Opening a connection *)

Lemma find_none : forall s k, N.of_nat k = 512 -> find_free s k 0 = None ->
  forall c, c < 512 -> own (chans s c) <> None.
Proof.
  intros s k Hk E c Hc. pose proof (find_free_spec s k 0) as F. rewrite E, Hk in F.
  pose proof (N.mod_lt (last s) 512 ltac:(lia)) as Lt.
  pose proof (N.div_mod (last s) 512 ltac:(lia)) as Dm.
  set (l0 := last s mod 512) in *. set (qq := last s / 512) in *.
  assert (exists m, 0 <= m < 512 /\ (last s + m + 1) mod 512 = c) as (m & M1 & M2).
  { destruct (N.le_gt_cases (l0 + 1) c) as [Q|Q].
    - exists (c - l0 - 1). split; [lia|]. symmetry.
      apply (N.mod_unique _ _ qq c); lia.
    - exists (512 + c - l0 - 1). split; [lia|]. symmetry.
      apply (N.mod_unique _ _ (qq + 1) c); lia. }
  rewrite <- M2. apply F. lia.
Qed.

Lemma find_some : forall s k c, find_free s k 0 = Some c ->
  c < 512 /\ own (chans s c) = None /\
  exists j, j < N.of_nat k /\ c = (last s + j + 1) mod 512 /\
    forall m, m < j -> own (chans s ((last s + m + 1) mod 512)) <> None.
Proof.
  intros s k c E. pose proof (find_free_spec s k 0) as F. rewrite E in F.
  destruct F as (F1 & F2 & j & F3 & F4 & F5). split; auto. split; auto.
  exists j. split; [lia|]. split; auto. intros m Hm. apply F5. lia.
Qed.

Lemma n512 : N.of_nat 512 = 512.
Proof. reflexivity. Qed.

Lemma connect_alive : forall s ok k, k = 512%nat -> dead s = false ->
  connect s ok = match find_free s k 0 with
    | None => (s, None)
    | Some c =>
        let s1 := Ep (hdr s) (icmd s) (ich s) (ilen s) (ibuf s) (chans s)
                     (outq s) (hw s) c (next s) (dead s) (log s) in
        if ok then
          let n := next s in
          let s2 := seen (ECon n c)
                      (set_chan s1 c (Ch (Some n) (inq (chans s1 c)))) in
          let s3 := Ep (hdr s2) (icmd s2) (ich s2) (ilen s2) (ibuf s2)
                       (chans s2) (outq s2) (hw s2) (last s2) (n + 1) (dead s2)
                       (log s2) in
          (append_out s3 (N.lor c 32768) s_connect, Some n)
        else (s1, None)
    end.
Proof. intros s ok k -> D. unfold connect. rewrite D. reflexivity. Qed.

Lemma connect_spec : forall s ok, Good s -> dead s = false ->
  match snd (connect s ok) with
  | Some n =>
      exists c, log (fst (connect s ok)) = ECon n c :: log s /\
        owner (log s) c = None /\ (forall d, owner (log s) d <> Some n)
  | None =>
      log (fst (connect s ok)) = log s /\
      (ok = true -> forall c, c < 512 -> owner (log s) c <> None)
  end.
Proof.
  intros s ok [G|G] D; [|rewrite (dD _ G) in D; discriminate].
  pose proof (iA _ G) as (A1 & A2 & A3).
  assert (Hk : exists k, k = 512%nat /\ N.of_nat k = 512) by (exists 512%nat; split; [reflexivity|apply n512]).
  destruct Hk as (k & Hk & Hn).
  rewrite (connect_alive s ok k Hk D).
  pose proof (find_none s k Hn) as Fn.
  pose proof (find_some s k) as Fs.
  destruct (find_free s k 0) as [c|].
  - destruct (Fs c eq_refl) as (F1 & F2 & _). destruct ok; cbn [fst snd].
    + exists c. split; [reflexivity|]. split.
      * destruct (A1 c); congruence.
      * intros d X. apply A2 in X. lia.
    + split; [reflexivity|discriminate].
  - cbn [fst snd]. split; [reflexivity|]. intros _ c Hc.
    destruct (A1 c) as [A1' _]. rewrite <- A1'. auto.
Qed.

(** * How much one call does *)

Lemma taken_close_all : forall cs s, taken (log (close_all cs s)) = taken (log s).
Proof.
  induction cs as [|c cs IH]; intro s; cbn [close_all]; auto.
  rewrite IH. destruct (own (chans s c)); reflexivity.
Qed.

Lemma taken_die : forall s, taken (log (die s)) = taken (log s).
Proof. intro s. unfold die. rewrite mark_dead_log. apply taken_close_all. Qed.

Lemma dispatch_taken : forall s ok s' r,
  (forall c, own (chans s c) = owner (log s) c) ->
  dispatch s ok = (s', r) ->
  taken (log s') = (taken (log s) + match r with Counted => 1 | _ => 0 end)%nat.
Proof.
  intros s ok s' r A E. unfold dispatch in E.
  cbn [fresh seen chans] in E. pose proof (A (ich s)) as Ho.
  destruct (own (chans s (ich s))) as [n|].
  - injection E as <- <-. cbn. now rewrite <- Ho.
  - destruct (_ && _); [|destruct (ifcmd _ _ _)]; injection E as <- <-; cbn; now rewrite <- Ho.
Qed.

Lemma feed_taken : forall s l ok s' r,
  (forall c, own (chans s c) = owner (log s) c) ->
  feed s l ok = (s', r) ->
  taken (log s') = (taken (log s) + match r with Counted => 1 | _ => 0 end)%nat.
Proof.
  intros s l ok s' r A E. unfold feed in E.
  repeat match goal with
  | H : (if ?b then _ else _) = _ |- _ => destruct b
  end; try (injection E as <- <-; cbn; lia);
  apply dispatch_taken in E; auto.
Qed.

Lemma rloop_taken : forall rs k s, Inv s -> Forall byte_ans rs ->
  (taken (log (rloop rs (S k) s)) <= taken (log s) + S k)%nat.
Proof.
  induction rs as [|r rs IH]; intros k s Hs Hb; [cbn; lia|].
  inversion Hb; subst. cbn [rloop]. destruct r as [l ok| |].
  - destruct (firstn (want s) l) as [|x xs] eqn:Ef.
    + rewrite taken_die. cbn. lia.
    + destruct (feed (seen (ERx (x :: xs)) s) (x :: xs) ok) as [s1 r] eqn:Efd.
      assert (B1 : Forall (fun b => b < 256) (x :: xs)).
      { rewrite <- Ef. apply Forall_firstn. assumption. }
      assert (B2 : (length (x :: xs) <= want s)%nat).
      { rewrite <- Ef, firstn_length. lia. }
      destruct (feed_inv _ _ _ _ _ _ Hs B1 B2 Efd) as [G1 G2].
      assert (T : taken (log s1) =
        (taken (log s) + match r with Counted => 1 | _ => 0 end)%nat).
      { assert (Ao : forall c, own (chans (seen (ERx (x :: xs)) s) c) =
                               owner (log (seen (ERx (x :: xs)) s)) c).
        { intro c. destruct (iA _ Hs) as (A & _). destruct (A c) as [A' _]. exact A'. }
        exact (feed_taken _ _ _ _ _ Ao Efd). }
      destruct r.
      * rewrite <- (Nat.add_0_r (taken (log s))), <- T. apply IH; auto. apply G1. discriminate.
      * assert (Inv s1) by (apply G1; discriminate).
        destruct k as [|k]; [rewrite T; lia|].
        specialize (IH k s1 H H2). lia.
      * rewrite <- (Nat.add_0_r (taken (log s))), <- T. apply IH; auto. apply G1. discriminate.
      * rewrite taken_die. lia.
  - lia.
  - rewrite taken_die. cbn. lia.
Qed.

Lemma wloop_taken : forall ws k s, taken (log (wloop ws k s)) = taken (log s).
Proof.
  induction ws as [|a ws IH]; intros k s; cbn [wloop];
    destruct (outq s) as [|f q]; auto.
  destruct a as [n| |]; auto; [|rewrite taken_die; reflexivity].
  destruct (hw s <? 6)%nat.
  - destruct (firstn _ _) as [|x xs]; [rewrite taken_die; reflexivity|].
    destruct (_ && _)%nat; [destruct k as [|[|k]]|]; try reflexivity; rewrite IH; reflexivity.
  - destruct (firstn _ _) as [|x xs]; [rewrite taken_die; reflexivity|].
    destruct (_ <=? _)%nat; [destruct k as [|[|k]]|]; try reflexivity; rewrite IH; reflexivity.
Qed.

Lemma main_taken : forall s rs ws, Good s -> Forall byte_ans rs ->
  (taken (log (main s rs ws)) <= taken (log s) + 500)%nat.
Proof.
  intros s rs ws G Hb. unfold main. destruct (dead s) eqn:D; [lia|].
  destruct G as [G|G]; [|rewrite (dD _ G) in D; discriminate].
  pose proof (rloop_taken rs 499 s G Hb).
  change (S 499) with 500%nat in H.
  destruct (dead (rloop rs 500 s)); [lia|]. rewrite wloop_taken. lia.
Qed.

(** A frame without bytes on channel 1, as many times as one likes. *)
Definition stray : rans := RGot [0; 1; 0; 0; 0; 0] false.

Definition after_stray (s : ep) : ep :=
  command_out (fresh (seen (EFrame (Fr false 1 []) false)
    (set_infl (set_hdr (seen (ERx [0;1;0;0;0;0]) s) [0;1;0;0;0;0])
              false 1 0 []))) 1 s_reset.

Lemma stray_one : forall rs b s, hdr s = [] -> own (chans s 1) = None ->
  rloop (stray :: rs) b s = rloop rs b (after_stray s).
Proof.
  intros rs b s Hh Ho. unfold stray. cbn [rloop]. unfold want. rewrite Hh.
  cbn [length Nat.ltb Nat.leb Nat.sub firstn].
  unfold feed. cbn [seen hdr]. rewrite Hh. cbn [length Nat.ltb Nat.leb app].
  change (N.land (get16 [0;1;0;0;0;0]) 32768 =? 0) with true.
  change (get16 [0;1;0;0;0;0]) with 1. change (get32 [0;1;0;0;0;0]) with 0.
  cbn [negb]. change (max_frame <? 0) with false.
  change (max_channels <=? 1) with false. change (0 =? 0) with true. cbn iota.
  unfold dispatch.
  cbn [set_infl set_hdr seen fresh ich icmd ibuf chans]. rewrite Ho. reflexivity.
Qed.

Lemma stray_many : forall k s b,
  hdr s = [] -> own (chans s 1) = None ->
  length (frames (log (rloop (repeat stray k) b s))) =
    (length (frames (log s)) + k)%nat /\
  length (outq (rloop (repeat stray k) b s)) = (length (outq s) + k)%nat /\
  length (owed (log (rloop (repeat stray k) b s))) =
    (length (owed (log s)) + (if owner (log s) 1 then 0 else k))%nat /\
  txs (log (rloop (repeat stray k) b s)) = txs (log s) /\
  dead (rloop (repeat stray k) b s) = dead s.
Proof.
  induction k as [|k IH]; intros s b Hh Ho.
  - cbn. destruct (owner (log s) 1); repeat split; lia.
  - cbn [repeat]. rewrite stray_one by auto.
    destruct (IH (after_stray s) b eq_refl Ho) as (I1 & I2 & I3 & I4 & I5).
    rewrite I1, I2, I3, I4, I5. cbn. rewrite !app_length. cbn.
    destruct (owner (log s) 1); cbn; repeat split; lia.
Qed.
