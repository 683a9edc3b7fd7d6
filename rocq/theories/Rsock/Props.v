(** Theorems about reverse sockets. *)
From Coq Require Import Ascii String.
From Coq Require Import List NArith Arith Bool Lia ZifyBool ZifyNat ZifyN.
From Verif Require Import Rsock.Model Rsock.Spec Rsock.Proofs Rsock.Proofs2
     Rsock.Proofs3 Rsock.Proofs4 Rsock.Proofs5 Rsock.Proofs6 Rsock.Proofs7.
Import ListNotations.
Local Open Scope N_scope.

(** A run used in the examples: the peer opens channel 3 and sends "hi" in odd
    pieces, it is written to the local connection byte by byte, the local
    connection answers "ok", and half of the header goes out. *)
Definition demo : list op :=
  [ OMain [ RGot [128;3;0] true; RGot [0;0;7] true;
            RGot [67;79;78;78;69;67;84;99] true;
            RGot [0;3;0;0;0;2] true; RGot [104] true; RAgain ] [];
    OMain [ RGot [105] false ] [];
    OChan 3 [WTake 1; WAgain; WTake 5] [RGot [111;107] true];
    OMain [] [WTake 3; WAgain] ].

Lemma demo_ok : Forall byte_op demo.
Proof.
  unfold demo. repeat constructor.
Qed.

Definition demo_log : list ev :=
  [ ETx [0;3;0]; EDeliv 0 [105]; ERead 0 [111;107]; EDeliv 0 [104];
    EFrame (Fr false 3 [104;105]) false; ERx [105];
    ERx [104]; ERx [0;3;0;0;0;2];
    EAcc 0 3; EFrame (Fr true 3 [67;79;78;78;69;67;84]) true;
    ERx [67;79;78;78;69;67;84]; ERx [0;0;7]; ERx [128;3;0] ].

Lemma demo_run : log (run demo init) = demo_log.
Proof. vm_compute. reflexivity. Qed.

(** * C162 *)

Theorem C162_wire : forall os,
  Forall byte_op os ->
  begins (txs (log (run os init))) (encs (owed (log (run os init)))) /\
  Forall valid (owed (log (run os init))).
Proof. intros os H. apply good_tx, run_init, H. Qed.

Example C162_wire_ex :
  txs demo_log = [0;3;0] /\ owed demo_log = [Fr false 3 [111;107]] /\
  encs (owed demo_log) = [0;3;0;0;0;2;111;107].
Proof. vm_compute. auto. Qed.

(** The words are those of the protocol. *)
Theorem C162_words :
  s_connect = map Ascii.N_of_ascii (String.list_ascii_of_string "CONNECT"%string) /\
  s_reset = map Ascii.N_of_ascii (String.list_ascii_of_string "RESET"%string) /\
  s_close = map Ascii.N_of_ascii (String.list_ascii_of_string "CLOSE"%string) /\
  s_shutdown = map Ascii.N_of_ascii (String.list_ascii_of_string "SHUTDOWN"%string).
Proof. repeat split. Qed.

Theorem C162_progress : forall os k ws,
  Forall byte_op os -> dead (run os init) = false ->
  txs (log (run os init)) <> encs (owed (log (run os init))) -> 0 < k ->
  (length (txs (log (run os init))) <
   length (txs (log (step (run os init) (OMain [] (WTake k :: ws))))))%nat.
Proof. intros os k ws H D X Hk. apply main_progress; auto. now apply run_init. Qed.

Example C162_progress_ex :
  dead (run demo init) = false /\
  txs (log (run demo init)) <> encs (owed (log (run demo init))) /\
  txs (log (step (run demo init) (OMain [] [WTake 1; WTake 9; WTake 1]))) =
    [0;3;0;0;0;2;111].
Proof. vm_compute. repeat split; intro; discriminate. Qed.

Theorem C162_reads : forall os c n l ok,
  Forall byte_op os -> owner (log (run os init)) c = Some n ->
  Forall data (came (log (run os init)) n) -> l <> [] ->
  log (step (run os init) (OChan c [] [RGot l ok])) =
    ERead n (firstn (N.to_nat 65530) l) :: log (run os init).
Proof. intros. apply chan_read; auto. now apply run_init. Qed.

Example C162_reads_ex :
  owner demo_log 3 = Some 0 /\ Forall data (came demo_log 0).
Proof. split; [vm_compute; reflexivity|]. repeat constructor. discriminate. Qed.

(** * C163 *)

Theorem C163_frames : forall os,
  Forall byte_op os ->
  Forall valid (frames (log (run os init))) /\
  exists part, rxs (log (run os init)) = encs (frames (log (run os init))) ++ part /\
               no_frame part.
Proof. intros os H. destruct (good_rx _ (run_init os H)). auto. Qed.

Example C163_frames_ex :
  frames demo_log = [Fr true 3 s_connect; Fr false 3 [104;105]] /\
  rxs demo_log = encs (frames demo_log) ++ [].
Proof. vm_compute. auto. Qed.

Theorem C163_any_pieces : forall os fs part,
  Forall byte_op os -> Forall valid fs -> no_frame part ->
  rxs (log (run os init)) = encs fs ++ part -> frames (log (run os init)) = fs.
Proof. intros os fs part H V P E. eapply rx_exact; eauto. now apply run_init. Qed.

Example C163_any_pieces_ex :
  Forall valid [Fr true 3 s_connect; Fr false 3 [104;105]] /\
  no_frame [] /\
  rxs (log (run demo init)) =
    encs [Fr true 3 s_connect; Fr false 3 [104;105]] ++ [].
Proof.
  split; [|split].
  - repeat constructor; cbn; lia.
  - apply stuck_nil.
  - rewrite demo_run. vm_compute. reflexivity.
Qed.

(** * C164 *)

Theorem C164_failure : forall os,
  Forall byte_op os ->
  (dead (run os init) = true <-> failure (log (run os init))).
Proof. intros os H. apply good_dead, run_init, H. Qed.

Definition demo_bad : list op :=
  demo ++ [OMain [RGot [2;0;0;0] true; RGot [0;1;7] true; RGot [0;3] true] [WTake 9];
           OChan 3 [] [RGot [1] true]; OConn true].

Example C164_failure_ex :
  dead (run demo init) = false /\ dead (run demo_bad init) = true /\
  log (run demo_bad init) =
    EClose 0 Failed :: ERx [0;1] :: ERx [2;0;0;0] :: demo_log.
Proof. vm_compute. auto. Qed.

Theorem C164_bad_header : forall os fs h rest,
  Forall byte_op os -> Forall valid fs -> bad_header h ->
  rxs (log (run os init)) = encs fs ++ h ++ rest ->
  dead (run os init) = true /\ frames (log (run os init)) = fs.
Proof. intros os fs h rest H V B E. eapply bad_header_dead; eauto. now apply run_init. Qed.

Example C164_bad_header_ex :
  bad_header [2;0;0;0;0;1] /\ bad_header [0;3;0;1;0;0] /\
  rxs (log (run demo_bad init)) =
    encs [Fr true 3 s_connect; Fr false 3 [104;105]] ++ [2;0;0;0;0;1] ++ [].
Proof.
  split; [|split].
  - exists 2, 0, 0, 0, 0, 1. split; [reflexivity|]. right. vm_compute. discriminate.
  - exists 0, 3, 0, 1, 0, 0. split; [reflexivity|]. left. reflexivity.
  - vm_compute. reflexivity.
Qed.

Theorem C164_final : forall os os',
  Forall byte_op os -> dead (run os init) = true ->
  (forall c, owner (log (run os init)) c = None) /\
  run os' (run os init) = run os init.
Proof.
  intros os os' H D. pose proof (good_dead_D _ (run_init os H) D) as G.
  split; [apply (dO _ G)|now apply dead_run].
Qed.

Example C164_final_ex :
  dead (run demo_bad init) = true /\ owner demo_log 3 = Some 0 /\
  owner (log (run demo_bad init)) 3 = None.
Proof. vm_compute. auto. Qed.

Theorem C164_error : forall os rs ws,
  Forall byte_op os -> dead (run os init) = false ->
  dead (step (run os init) (OMain (REnd :: rs) ws)) = true /\
  (txs (log (run os init)) <> encs (owed (log (run os init))) ->
   dead (step (run os init) (OMain [] (WErr :: ws))) = true).
Proof.
  intros os rs ws H D. split; [now apply main_read_error|].
  intro X. apply main_write_error; auto. now apply run_init.
Qed.

Example C164_error_ex :
  dead (run demo init) = false /\
  txs demo_log <> encs (owed demo_log).
Proof. vm_compute. split; [reflexivity|discriminate]. Qed.

(** * C165 *)

Theorem C165_given : forall os n,
  Forall byte_op os ->
  exists ds rest,
    came (log (run os init)) n = ds ++ rest /\ Forall data ds /\
    begins (given (log (run os init)) n) (bytes ds).
Proof. intros os n H. apply lawful_given, good_lawful, run_init, H. Qed.

Example C165_given_ex :
  came demo_log 0 = [Fr false 3 [104;105]] /\ given demo_log 0 = [104;105].
Proof. vm_compute. auto. Qed.

Theorem C165_progress : forall os c n k ws rs ds rest,
  Forall byte_op os -> owner (log (run os init)) c = Some n -> 0 < k ->
  came (log (run os init)) n = ds ++ rest -> Forall data ds ->
  (length (given (log (run os init)) n) < length (bytes ds))%nat ->
  (length (given (log (run os init)) n) <
   length (given (log (step (run os init) (OChan c (WTake k :: ws) rs))) n))%nat.
Proof. intros. eapply chan_progress; eauto. now apply run_init. Qed.

Example C165_progress_ex :
  let os := firstn 2 demo in
  Forall byte_op os /\ owner (log (run os init)) 3 = Some 0 /\
  came (log (run os init)) 0 = [Fr false 3 [104;105]] ++ [] /\
  Forall data [Fr false 3 [104;105]] /\
  (length (given (log (run os init)) 0%N) <
   length (bytes [Fr false 3 [104;105]%N]))%nat.
Proof.
  cbv zeta. split; [repeat constructor|]. split; [vm_compute; reflexivity|].
  split; [vm_compute; reflexivity|]. split.
  - repeat constructor. discriminate.
  - vm_compute. lia.
Qed.

(** * C166 *)

Theorem C166_link : forall osA osB,
  Forall byte_op osA -> Forall byte_op osB ->
  begins (rxs (log (run osB init))) (txs (log (run osA init))) ->
  exists later,
    owed (log (run osA init)) = frames (log (run osB init)) ++ later.
Proof.
  intros osA osB HA HB [r R].
  destruct (good_tx _ (run_init osA HA)) as [[u U] V].
  destruct (good_rx _ (run_init osB HB)) as [(p & P & _) F].
  eapply (parse_prefix _ _ p (r ++ u)); eauto.
  rewrite U, R, P. now rewrite <- !app_assoc.
Qed.

Theorem C166_all : forall osA osB,
  Forall byte_op osA -> Forall byte_op osB ->
  rxs (log (run osB init)) = encs (owed (log (run osA init))) ->
  frames (log (run osB init)) = owed (log (run osA init)).
Proof.
  intros osA osB HA HB E.
  destruct (good_tx _ (run_init osA HA)) as [_ V].
  eapply (rx_exact _ _ []); eauto.
  - now apply run_init.
  - apply stuck_nil.
  - now rewrite app_nil_r.
Qed.

(** One end opens a connection and writes it out in three pieces; the other end
    reads in two and opens its own. *)
Definition endA : list op := [OConn true; OMain [] [WTake 4; WTake 2; WTake 9]].
Definition endB : list op :=
  [OMain [RGot [128;1;0;0] true; RGot [0;7;67;79] true;
          RGot [67;79;78;78;69;67;84] true] []].

Example C166_link_ex :
  begins (rxs (log (run endB init))) (txs (log (run endA init))) /\
  owed (log (run endA init)) = [Fr true 1 s_connect].
Proof. split; [exists []; vm_compute; reflexivity|vm_compute; reflexivity]. Qed.

Example C166_all_ex :
  rxs (log (run endB init)) = encs (owed (log (run endA init))) /\
  frames (log (run endB init)) = [Fr true 1 s_connect] /\
  owner (log (run endB init)) 1 = Some 0.
Proof. vm_compute. auto. Qed.

(** * C167 *)

Theorem C167_lawful : forall os,
  Forall byte_op os -> lawful (log (run os init)).
Proof. intros os H. apply good_lawful, run_init, H. Qed.

(** A CONNECT on a channel in use, and a SHUTDOWN after data. *)
Definition demo_stop : list op :=
  demo ++
  [ OMain [RGot [0;3;0;0;0;1] true; RGot [33] true;
           RGot [128;3;0;0;0;5] true; RGot s_reset true;
           RGot [0;3;0;0;0;1] true; RGot [34] true] [];
    OChan 3 [WTake 1; WTake 1] [] ].

Example C167_lawful_ex :
  firstn 2 (log (run demo_stop init)) = [EClose 0 Quiet; EDeliv 0 [33]] /\
  came (log (run demo_stop init)) 0 =
    [Fr false 3 [104;105]; Fr false 3 [33]; Fr true 3 s_reset; Fr false 3 [34]] /\
  given (log (run demo_stop init)) 0 = [104;105;33].
Proof. vm_compute. auto. Qed.

Theorem C167_granted : forall os l1 f l2,
  Forall byte_op os -> log (run os init) = l1 ++ EFrame f true :: l2 ->
  is_cmd f s_connect -> owner l2 (fch f) = None ->
  exists l1' n, l1 = l1' ++ [EAcc n (fch f)].
Proof.
  intros os l1 f l2 H E C O. pose proof (run_init os H) as G.
  pose proof (good_lawful _ G) as L. pose proof (good_idle _ G) as I.
  rewrite E in L, I. exact (lawful_due _ _ _ L I C O).
Qed.

Example C167_granted_ex :
  exists l1 l2,
    log (run demo init) = l1 ++ EFrame (Fr true 3 s_connect) true :: l2 /\
    is_cmd (Fr true 3 s_connect) s_connect /\ owner l2 3 = None.
Proof.
  exists (firstn 9 demo_log), (skipn 10 demo_log). rewrite demo_run.
  vm_compute. auto.
Qed.

Theorem C167_stops : forall os c n ds f rest ws rs,
  Forall byte_op os -> owner (log (run os init)) c = Some n ->
  came (log (run os init)) n = ds ++ f :: rest -> Forall data ds -> ~ data f ->
  given (log (run os init)) n = bytes ds ->
  owner (log (step (run os init) (OChan c ws rs))) c = None.
Proof. intros. eapply chan_stops; eauto. now apply run_init. Qed.

Example C167_stops_ex :
  let os := demo ++ [OMain [RGot [128;3;0;0;0;5] true; RGot s_reset true] []] in
  owner (log (run os init)) 3 = Some 0 /\
  came (log (run os init)) 0 = [Fr false 3 [104;105]] ++ [Fr true 3 s_reset] /\
  given (log (run os init)) 0 = bytes [Fr false 3 [104;105]] /\
  ~ data (Fr true 3 s_reset).
Proof.
  cbv zeta. split; [vm_compute; reflexivity|]. split; [vm_compute; reflexivity|].
  split; [vm_compute; reflexivity|]. intros [X _]. discriminate X.
Qed.

Theorem C167_local_end : forall os c n rs,
  Forall byte_op os -> owner (log (run os init)) c = Some n ->
  owner (log (step (run os init) (OChan c [] (REnd :: rs)))) c = None /\
  (forall ds rest ws,
     came (log (run os init)) n = ds ++ rest -> Forall data ds ->
     (length (given (log (run os init)) n) < length (bytes ds))%nat ->
     owner (log (step (run os init) (OChan c (WErr :: ws) rs))) c = None).
Proof.
  intros os c n rs H O. pose proof (run_init os H) as G.
  split; [now apply chan_end|]. intros. eapply chan_write_error; eauto.
Qed.

Example C167_local_end_ex :
  let os := firstn 2 demo in
  owner (log (run os init)) 3 = Some 0 /\
  came (log (run os init)) 0 = [Fr false 3 [104;105]] ++ [] /\
  (length (given (log (run os init)) 0%N) <
   length (bytes [Fr false 3 [104;105]%N]))%nat.
Proof.
  cbv zeta. split; [vm_compute; reflexivity|]. split; [vm_compute; reflexivity|].
  vm_compute. lia.
Qed.

(** * C168 *)

Theorem C168_connect : forall os ok,
  Forall byte_op os -> dead (run os init) = false ->
  match snd (connect (run os init) ok) with
  | Some n =>
      exists c,
        log (fst (connect (run os init) ok)) = ECon n c :: log (run os init) /\
        owner (log (run os init)) c = None /\
        (forall d, owner (log (run os init)) d <> Some n)
  | None =>
      log (fst (connect (run os init) ok)) = log (run os init) /\
      (ok = true -> forall c, c < 512 -> owner (log (run os init)) c <> None)
  end.
Proof. intros os ok H D. apply connect_spec; auto. now apply run_init. Qed.

Example C168_connect_ex :
  dead (run demo init) = false /\
  snd (connect (run demo init) true) = Some 1 /\
  log (fst (connect (run demo init) true)) = ECon 1 1 :: demo_log /\
  snd (connect (run demo init) false) = None.
Proof. vm_compute. auto. Qed.

(** * C169 *)

(** Bytes that were on their way to an earlier connection of the channel go to
    the new one, whose CONNECT has not been written. *)
Definition stale : list op :=
  [ OConn true;
    OMain [RGot [0;1;0;0;0;1] true; RGot [66] true] [WAgain];
    OChan 1 [WTake 9] [] ].

Theorem C169_refuted : ~ C169_full.
Proof.
  intro H.
  assert (B : Forall byte_op stale) by (repeat constructor).
  specialize (H stale [] 0 [66]
    [EFrame (Fr false 1 [66]) true; ERx [66]; ERx [0;1;0;0;0;1]; ECon 0 1] 1 B
    ltac:(vm_compute; reflexivity) ltac:(cbn; auto)).
  destruct H as (l1 & c & l2 & E & L).
  cbn [txs length] in L. cbn [owed] in L. rewrite encs_app, app_length in L.
  change (encs [Fr true c s_connect]) with (enc (Fr true c s_connect) ++ []) in L.
  rewrite app_length, enc_len in L. cbn [length] in L. lia.
Qed.

Theorem C169_clean_partial : forall os l1 n c l2,
  Forall byte_op os ->
  (log (run os init) = l1 ++ ECon n c :: l2 \/
   log (run os init) = l1 ++ EAcc n c :: l2) ->
  came l2 n = [] /\ given l2 n = [].
Proof.
  intros os l1 n c l2 H E. pose proof (good_lawful _ (run_init os H)) as L.
  destruct E as [E|E]; rewrite E in L; apply lawful_split in L; destruct L as [F _];
    cbn [fits] in F; tauto.
Qed.

Example C169_clean_partial_ex :
  Forall byte_op stale /\
  log (run stale init) =
    [EDeliv 0 [66]; EFrame (Fr false 1 [66]) true; ERx [66]; ERx [0;1;0;0;0;1]]
    ++ ECon 0 1 :: [].
Proof. split; [repeat constructor|vm_compute; reflexivity]. Qed.

(** * C170 *)

Theorem C170_unbounded : forall k,
  Forall byte_op [OMain (repeat stray k) []] /\
  length (frames (log (run [OMain (repeat stray k) []] init))) = k /\
  length (owed (log (run [OMain (repeat stray k) []] init))) = k /\
  txs (log (run [OMain (repeat stray k) []] init)) = [].
Proof.
  intro k. split.
  - constructor; auto. cbn [byte_op]. induction k; cbn [repeat]; constructor; auto.
    repeat constructor.
  - destruct (stray_many k init 500 eq_refl eq_refl) as (H1 & H2 & H3 & H4 & H5).
    cbn [run step]. unfold main. change (dead init) with false in *. cbn iota.
    rewrite H5. cbn iota.
    assert (W : forall n s, wloop [] n s = s) by (intros n s; cbn; destruct (outq s); auto).
    rewrite W. split; [exact H1|]. split; [exact H3|exact H4].
Qed.

Example C170_unbounded_ex :
  owed (log (run [OMain (repeat stray 2) []] init)) =
    [Fr true 1 s_reset; Fr true 1 s_reset].
Proof. vm_compute. reflexivity. Qed.

Theorem C170_refuted : ~ C170_full.
Proof.
  intros [k H]. destruct (C170_unbounded (S k)) as (H1 & H2 & _).
  specialize (H [] (repeat stray (S k)) [] H1).
  cbn [app] in H. rewrite H2 in H. cbn in H. lia.
Qed.

Theorem C170_taken_partial : forall os rs ws,
  Forall byte_op (os ++ [OMain rs ws]) ->
  (taken (log (run (os ++ [OMain rs ws]) init)) <=
   taken (log (run os init)) + 500)%nat.
Proof.
  intros os rs ws H. apply Forall_app in H. destruct H as [H1 H2].
  inversion H2; subst. rewrite run_app. cbn [run step].
  apply main_taken; auto. now apply run_init.
Qed.

Example C170_taken_partial_ex :
  taken (log (run (firstn 1 demo) init)) = 0%nat /\
  taken (log (run (firstn 1 demo ++ [OMain [RGot [105] false] []]) init)) = 1%nat.
Proof. vm_compute. auto. Qed.

(** * C171 *)

(** The local connection cannot take the byte yet, and has stopped sending. *)
Definition half : list op :=
  [ OConn true;
    OMain [RGot [0;1;0;0;0;1] true; RGot [66] true] [];
    OChan 1 [WAgain] [REnd] ].

Theorem C171_refuted : ~ C171_full.
Proof.
  intro H.
  assert (B : Forall byte_op half) by (repeat constructor).
  specialize (H half [] 0
    [EFrame (Fr false 1 [66]) true; ERx [66]; ERx [0;1;0;0;0;1]; ECon 0 1] B
    ltac:(vm_compute; reflexivity) [Fr false 1 [66]] [] ltac:(reflexivity)
    ltac:(repeat constructor; discriminate)).
  destruct H as [r H]. discriminate H.
Qed.

Theorem C171_closed_by_peer_partial : forall os l1 n h l2,
  Forall byte_op os -> log (run os init) = l1 ++ EClose n h :: l2 ->
  h <> Failed -> (forall t, l2 <> EEnd n :: t) ->
  exists ds f rest,
    came l2 n = ds ++ f :: rest /\ Forall data ds /\ ~ data f /\
    given l2 n = bytes ds.
Proof.
  intros os l1 n h l2 H E Nf Ne. pose proof (good_lawful _ (run_init os H)) as L.
  rewrite E in L. apply lawful_split in L. destruct L as [F _].
  destruct h; [| |congruence]; cbn [fits] in F.
  - destruct F as (_ & ds & f & rest & F1 & F2 & F3 & F4).
    exists ds, f, rest. repeat (split; auto).
    intros [X _]. destruct F4 as [[Y _]|[Y _]]; congruence.
  - destruct F as (_ & [[t X]|(ds & f & rest & F1 & F2 & F3 & F4 & _)]).
    + now apply Ne in X.
    + exists ds, f, rest. auto.
Qed.

Example C171_closed_by_peer_partial_ex :
  exists l2, log (run demo_stop init) = [] ++ EClose 0 Quiet :: l2 /\
             forall t, l2 <> EEnd 0 :: t.
Proof.
  exists (tl (log (run demo_stop init))). split.
  - vm_compute. reflexivity.
  - intro t. vm_compute. intro; discriminate.
Qed.

Print Assumptions C162_wire.
Print Assumptions C162_words.
Print Assumptions C162_progress.
Print Assumptions C162_reads.
Print Assumptions C163_frames.
Print Assumptions C163_any_pieces.
Print Assumptions C164_failure.
Print Assumptions C164_bad_header.
Print Assumptions C164_final.
Print Assumptions C164_error.
Print Assumptions C165_given.
Print Assumptions C165_progress.
Print Assumptions C166_link.
Print Assumptions C166_all.
Print Assumptions C167_lawful.
Print Assumptions C167_granted.
Print Assumptions C167_stops.
Print Assumptions C167_local_end.
Print Assumptions C168_connect.
Print Assumptions C169_refuted.
Print Assumptions C169_clean_partial.
Print Assumptions C170_unbounded.
Print Assumptions C170_refuted.
Print Assumptions C170_taken_partial.
Print Assumptions C171_refuted.
Print Assumptions C171_closed_by_peer_partial.
