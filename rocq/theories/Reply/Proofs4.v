(** From the calls to the wire. *)
From Coq Require Import NArith Arith List Bool Ascii String Permutation Sorted Lia ZifyBool ZifyNat ZifyN.
From Verif.Reply Require Import Model Spec Proofs Proofs2 Proofs3.
From Verif.B64 Require Model Spec Proofs.
Import ListNotations.
Local Open Scope nat_scope.

Lemma done_inj : forall A (x y : A), Done x = Done y -> x = y.
Proof. intros A x y E. now injection E. Qed.
Lemma start_inv : forall B order q r r' out, start B order q r = Done (r', out) ->
  exists r1, leader B order q r = Done (r1, out) /\ started r' = true /\
    protocol r' = protocol r1 /\ status r' = status r1 /\ reason r' = reason r1 /\ headers r' = headers r1 /\
    opts r' = opts r1 /\ needs_close r' = needs_close r1.
Proof.
  intros B order q r r' out E. unfold start in E.
  destruct (leader B order q r) as [[r1 o1]| |]; try discriminate.
  injection E as <- <-. exists r1. cbn. repeat split; reflexivity.
Qed.
Lemma line_len_ok : forall r, List.length (status_text r) = line_len r.
Proof.
  intro r. unfold status_text, line_len, code3. rewrite app_length. cbn [List.length].
  rewrite !app_length. cbn [List.length].
  destruct (protocol r); rewrite app_length; destruct (reason r); cbn -[Nat.add]; lia.
Qed.

Lemma values_perm : forall n f h v, Permutation f h ->
  values n h = match v with Some x => [x] | None => [] end -> values n f = match v with Some x => [x] | None => [] end.
Proof.
  intros n f h v P E.
  assert (Q : Permutation (values n h) (values n f)).
  { unfold values. apply Permutation_map. apply Permutation_sym. clear E.
    induction P; cbn.
    - constructor.
    - destruct (name_is n (fst x)); [now constructor|assumption].
    - destruct (name_is n (fst x)), (name_is n (fst y)); try apply Permutation_refl. constructor.
    - now apply Permutation_trans with (filter (fun g => name_is n (fst g)) l'). }
  rewrite E in Q. destruct v.
  - now apply Permutation_length_1_inv in Q.
  - now apply Permutation_nil in Q.
Qed.

Lemma lower_fold : forall k, map lower k = map fold_case k.
Proof. intro k. reflexivity. Qed.
Lemma is_cl_iff : forall k, is_cl k = true <-> same_name k (text "Content-Length").
Proof.
  intro k. unfold is_cl, same_name. rewrite lower_fold, andb_true_iff, beq_eq, Nat.eqb_eq, bs_text.
  change (map fold_case (text "Content-Length")) with (text "content-length").
  split; [now intros [_ E]|]. intro E. split; [|exact E].
  apply (f_equal (@List.length N)) in E. rewrite map_length in E. exact E.
Qed.
Lemma values_nonempty : forall n f, (exists k v, In (k, v) f /\ same_name k n) <-> values n f <> [].
Proof.
  intros n f. unfold values. split.
  - intros [k [v [I E]]] Z. apply map_eq_nil in Z.
    assert (X : In (k, v) (filter (fun f => name_is n (fst f)) f)) by (apply filter_In; split; [exact I|now apply name_is_iff]).
    rewrite Z in X. destruct X.
  - intro H. destruct (filter (fun f => name_is n (fst f)) f) as [|[k v] l] eqn:E; [now cbn in H|].
    assert (X : In (k, v) (filter (fun f => name_is n (fst f)) f)) by (rewrite E; now left).
    apply filter_In in X as [X1 X2]. apply name_is_iff in X2. eauto.
Qed.

(** Everything about the head of a response built by calls. *)
Lemma sent : forall B order q ops r' out, sorts order ->
  start B order q (run q fresh ops) = Done (r', out) -> line_len (run q fresh ops) <> B ->
  exists line fields, status_line (protocol r') (status r') (reason r') line /\
    Permutation fields (headers r') /\ Sorted name_le (map fst fields) /\ List.concat out = head_text line fields.
Proof.
  intros B order q ops r' out S E N. apply start_inv in E as [r1 [E [_ [E1 [E2 [E3 [E4 _]]]]]]].
  pose proof (Inv_run q ops fresh (Inv_fresh q)) as I.
  pose proof (leader_P B order q _ r1 out _ (closed_line q _ _ _) (conj eq_refl (conj eq_refl eq_refl)) E) as [L1 [L2 L3]].
  rewrite E1, E2, E3, E4, L1, L2, L3. rewrite <- line_len_ok in N.
  now apply (leader_ok B order q _ r1 out).
Qed.
Lemma sent_started : forall B order q r r' out, start B order q r = Done (r', out) -> started r' = true.
Proof. intros B order q r r' out E. now apply start_inv in E as [r1 [_ [E _]]]. Qed.
Lemma sent_reads : forall B order q ops r' out rest, sorts order -> Forall clean ops ->
  start B order q (run q fresh ops) = Done (r', out) -> line_len (run q fresh ops) <> B ->
  exists line fields, status_line (protocol r') (status r') (reason r') line /\
    Permutation fields (headers r') /\
    forall ls rest', reads (List.concat out ++ rest) ls rest' <-> ls = line :: map field_line fields /\ rest' = rest.
Proof.
  intros B order q ops r' out rest S C E N.
  assert (CR : cleanr r').
  { pose proof E as E0. apply start_inv in E0 as [r1 [E0 [_ [_ [_ [E3 [E4 _]]]]]]].
    assert (X : cleanr r1).
    { apply (leader_P B order q (run q fresh ops) r1 out); [intros r o H _ _; now apply cleanr_granted| |exact E0].
      apply cleanr_run; [exact C|]. split; cbn; [constructor|exact Logic.I]. }
    unfold cleanr. now rewrite E3, E4. }
  destruct (sent B order q ops r' out S E N) as [line [fields [A [P [_ T]]]]].
  exists line, fields. split; [exact A|]. split; [exact P|]. intros ls rest'. rewrite T.
  destruct CR as [CR1 CR2]. apply status_line_clean in A as [A1 A2]; [|exact CR2].
  assert (H : reads (head_text line fields ++ rest) (line :: map field_line fields) rest).
  { apply head_reads; auto. apply Permutation_sym in P. now apply (Permutation_Forall P). }
  split.
  - intro R. destruct (reads_unique _ _ _ H _ _ R) as [<- <-]. now split.
  - intros [-> ->]. exact H.
Qed.

Lemma sent_inv : forall B order q ops r' out, start B order q (run q fresh ops) = Done (r', out) ->
  exists r1, leader B order q (run q fresh ops) = Done (r1, out) /\ Inv q r1 /\ headers r' = headers r1 /\ opts r' = opts r1 /\
    needs_close r' = needs_close r1 /\ protocol r' = protocol r1 /\ (Forall plain ops -> HInv r1) /\
    (closing (ropts q) = true -> framed r1 = true).
Proof.
  intros B order q ops r' out E. apply start_inv in E as [r1 [E [_ [E1 [E2 [E3 [E4 [E5 E6]]]]]]]].
  pose proof (Inv_run q ops fresh (Inv_fresh q)) as I.
  exists r1. split; [exact E|]. split; [now apply (leader_P B order q _ r1 out (Inv q) (closed_Inv q) I)|].
  repeat split; auto.
  - apply (leader_P B order q _ r1 out HInv (closed_HInv q)) in E; [apply E|].
    apply HInv_run; [assumption|apply Inv_fresh|apply HInv_fresh].
  - apply (leader_P B order q _ r1 out HInv (closed_HInv q)) in E; [apply E|].
    apply HInv_run; [assumption|apply Inv_fresh|apply HInv_fresh].
  - apply (leader_P B order q _ r1 out HInv (closed_HInv q)) in E; [apply E|].
    apply HInv_run; [assumption|apply Inv_fresh|apply HInv_fresh].
  - apply (leader_P B order q _ r1 out HInv (closed_HInv q)) in E; [apply E|].
    apply HInv_run; [assumption|apply Inv_fresh|apply HInv_fresh].
  - intro C. apply leader_inv in E as [_ [F _]]. eapply framing_framed; [|exact C|exact F].
    apply choose_P; [apply closed_Inv|exact I].
Qed.

Definition list_of (o : option bytes) : list bytes := match o with Some v => [v] | None => [] end.
(** The fields the server owns. *)
Lemma sent_owned : forall B order q ops r' out f, Forall plain ops ->
  start B order q (run q fresh ops) = Done (r', out) -> Permutation f (headers r') ->
  values TE f = list_of (te_of (opts r')) /\ values CN f = list_of (cn_of (opts r')) /\
  values CE f = list_of (ce_of (opts r')) /\ values VA f = list_of (va_of (opts r')).
Proof.
  intros B order q ops r' out f P E Pf. apply sent_inv in E as [r1 [_ [I [E1 [E2 [_ [_ [H _]]]]]]]].
  specialize (H P). rewrite E2. rewrite E1 in Pf.
  destruct H as [H1 H2 H3 H4]. pose proof (i_nodup q r1 I) as N.
  repeat split; unfold list_of; apply values_perm with (headers r1); auto; now apply owned_values.
Qed.
Lemma sent_delimited : forall B order q ops r' out f, closing (ropts q) = true -> Forall plain ops ->
  start B order q (run q fresh ops) = Done (r', out) -> Permutation f (headers r') -> delimited r' f.
Proof.
  intros B order q ops r' out f C P E Pf.
  destruct (sent_owned B order q ops r' out f P E Pf) as [T [K _]].
  apply sent_inv in E as [r1 [_ [I [E1 [E2 [E3 [_ [_ F]]]]]]]]. specialize (F C).
  unfold framed in F. apply orb_true_iff in F as [F|F]; [apply orb_true_iff in F as [F|F]|].
  - left. apply values_nonempty. apply existsb_exists in F as [k [F1 F2]]. apply is_cl_iff in F2.
    apply in_map_iff in F1 as [[k' v] [F1 F3]]. cbn in F1. subst k'.
    exists k, v. split; [|exact F2]. rewrite E1 in Pf. apply Permutation_sym in Pf. now apply (Permutation_in _ Pf).
  - right. left. rewrite <- E2 in F. split; [|exact F]. unfold te_of in T. rewrite F in T. exact T.
  - right. right. rewrite <- E2 in F. split; [unfold cn_of in K; rewrite F in K; exact K|].
    rewrite E3. apply (i_close q r1 I). now rewrite <- E2.
Qed.
Lemma sent_old : forall B order q ops r' out f, Forall plain ops -> rprotocol q <> P11 ->
  start B order q (run q fresh ops) = Done (r', out) -> Permutation f (headers r') ->
  values TE f = [] /\ values CE f = [] /\ ending r' = [] /\ body_coding r' = Plain.
Proof.
  intros B order q ops r' out f P N E Pf.
  destruct (sent_owned B order q ops r' out f P E Pf) as [T [_ [K _]]].
  apply sent_inv in E as [r1 [_ [I [E1 [E2 [_ [_ [_ _]]]]]]]].
  assert (X : chunked (opts r') = false).
  { rewrite E2. destruct (chunked (opts r1)) eqn:Y; [|reflexivity]. apply (i_ch q r1 I) in Y.
    destruct (i_proto q r1 I); congruence. }
  assert (Y : encodings (opts r') = false).
  { rewrite E2. destruct (encodings (opts r1)) eqn:Y; [|reflexivity]. apply (i_enc q r1 I) in Y.
    destruct (i_proto q r1 I); congruence. }
  unfold te_of, ending, body_coding in *. rewrite X in *. unfold encodings in Y.
  apply orb_false_iff in Y as [Y Y3]. apply orb_false_iff in Y as [Y1 Y2].
  unfold ce_of in K. rewrite Y1, Y2, Y3 in *. now repeat split.
Qed.
Lemma ce_coding : forall r, list_of (ce_of (opts r)) = coding_name (body_coding r).
Proof. intro r. unfold ce_of, body_coding. destruct (gzip (opts r)), (deflate (opts r)), (lz4f (opts r)); reflexivity. Qed.

(** Options one at a time. *)
Definition accepted (q : request) (r : response) : Prop :=
  (chunked (opts r) = true -> chunked (ropts q) = true) /\ (closing (opts r) = true -> closing (ropts q) = true) /\
  (gzip (opts r) = true -> gzip (ropts q) = true) /\ (deflate (opts r) = true -> deflate (ropts q) = true) /\
  (lz4f (opts r) = true -> lz4f (ropts q) = true).
Lemma accepted_granted : forall q r o, In o ones -> common o (ropts q) = true -> accepted q r -> accepted q (granted r o).
Proof.
  intros q r o I C [A1 [A2 [A3 [A4 A5]]]]. unfold accepted, common in *. cbn [granted opts oor chunked closing gzip deflate lz4f].
  cbn in I. destruct I as [<-|[<-|[<-|[<-|[<-|[]]]]]]; cbn in C |- *; rewrite ?orb_false_r, ?orb_true_r in *;
  repeat split; auto; intro X; auto; rewrite ?X in *; auto.
Qed.
Lemma closed_accepted : forall q, closed q (accepted q).
Proof.
  intros q r o H I E. destruct (option_set_cases q r o) as [X|[_ [_ [_ [_ [_ C]]]]]]; [congruence|].
  now apply accepted_granted.
Qed.
Lemma accepted_run : forall q l r, Forall single l -> accepted q r -> accepted q (run q r l).
Proof.
  intros q. unfold run. induction l as [|o l IH]; intros r F H; cbn; [exact H|]. inversion F as [|? ? F1 F2]; subst.
  apply IH; [exact F2|]. destruct o as [c w|k v|o]; cbn [call].
  - unfold status_set. destruct (started r); [exact H|]. cbv zeta. destruct ((c <? 100)%N || (999 <? c)%N); exact H.
  - unfold header_set. destruct (started r); exact H.
  - destruct (option_set_cases q r o) as [X|[X [_ [_ [_ [_ C]]]]]]; rewrite X; cbn; [exact H|].
    now apply accepted_granted.
Qed.
Lemma sent_accepted : forall B order q ops r' out, Forall single ops ->
  start B order q (run q fresh ops) = Done (r', out) -> takes q (body_coding r') /\ (ending r' <> [] -> chunked (ropts q) = true).
Proof.
  intros B order q ops r' out F E. apply start_inv in E as [r1 [E [_ [_ [_ [_ [_ [E5 _]]]]]]]].
  assert (A : accepted q r1).
  { apply (leader_P B order q _ r1 out _ (closed_accepted q)) in E; [exact E|].
    apply accepted_run; [exact F|]. repeat split; discriminate. }
  destruct A as [A1 [A2 [A3 [A4 A5]]]]. unfold body_coding, ending. rewrite E5.
  split.
  - destruct (gzip (opts r1)); [now apply A3|]. destruct (deflate (opts r1)); [now apply A4|].
    destruct (lz4f (opts r1)); [now apply A5|exact Logic.I].
  - destruct (chunked (opts r1)); [intros _; now apply A1|congruence].
Qed.

(** * After output has started *)
Lemma frozen_call : forall q r o, started r = true -> call q r o = (false, r).
Proof.
  intros q r o H. destruct o; cbn; unfold status_set, header_set, option_set; now rewrite H.
Qed.
Lemma frozen_run : forall q l r, started r = true -> run q r l = r.
Proof.
  intros q. unfold run. induction l as [|o l IH]; intros r H; cbn; [reflexivity|].
  rewrite (frozen_call q r o H). now apply IH.
Qed.
(** The last accepted status, and the last value of a name. *)
Lemma run_app : forall q r l m, run q r (l ++ m) = run q (run q r l) m.
Proof. intros. unfold run. apply fold_left_app. Qed.

(** * Websockets *)
Lemma accept_ok : forall sha1 key, digest20 sha1 -> List.length key = 24 -> accept_key sha1 key = rfc_accept sha1 key.
Proof.
  intros sha1 key D L. unfold accept_key, rfc_accept. unfold KEY_LEN.
  replace (firstn 24 key) with key by (rewrite <- L; symmetry; apply firstn_all).
  change (firstn 36 GUID) with (text "258EAFA5-E914-47DA-95CA-C5AB0DC85B11").
  destruct (D (key ++ text "258EAFA5-E914-47DA-95CA-C5AB0DC85B11")) as [D1 D2].
  apply Verif.B64.Proofs.encode_spec; [exact D2|]. rewrite D1. apply Nat.leb_le. reflexivity.
Qed.

Lemma handshake_some : forall sha1 q r, handshake sha1 q r <> None <->
  hget (rheaders q) (text "upgrade") <> None /\ hget (rheaders q) (text "connection") <> None /\
  exists key, hget (rheaders q) (text "sec-websocket-key") = Some key /\ List.length key = 24.
Proof.
  intros sha1 q r. unfold handshake. rewrite !bs_text.
  destruct (hget (rheaders q) (text "upgrade")); [|split; [congruence|intros [X _]; congruence]].
  destruct (hget (rheaders q) (text "connection")); [|split; [congruence|intros [_ [X _]]; congruence]].
  destruct (hget (rheaders q) (text "sec-websocket-key")) as [key|].
  - unfold KEY_LEN. destruct (Nat.eqb_spec (List.length key) 24) as [L|L]; cbn [negb].
    + split; [intros _; repeat split; try discriminate; eauto|discriminate].
    + split; [congruence|]. intros [_ [_ [k [E K]]]]. congruence.
  - split; [congruence|]. intros [_ [_ [k [E _]]]]. discriminate.
Qed.
Definition hs_fields (acc : bytes) (q : request) : table :=
  [(text "Upgrade", text "websocket"); (CN, text "Upgrade"); (text "Sec-WebSocket-Accept", acc)] ++
  opt_field (text "Sec-WebSocket-Protocol") (hget (rheaders q) (text "sec-websocket-protocol")) ++
  opt_field (text "Sec-WebSocket-Version") (hget (rheaders q) (text "sec-websocket-version")).
Lemma handshake_eq : forall sha1 q r key, hget (rheaders q) (text "sec-websocket-key") = Some key ->
  handshake sha1 q fresh = Some r ->
  r = mkresp false (rprotocol q) 101 (Some (text "Switching Protocols")) (hs_fields (accept_key sha1 key) q) o0 false.
Proof.
  intros sha1 q r key K E. unfold handshake in E. rewrite !bs_text in E. rewrite K in E.
  destruct (hget (rheaders q) (text "upgrade")); [|discriminate].
  destruct (hget (rheaders q) (text "connection")); [|discriminate].
  destruct (negb (List.length key =? KEY_LEN)); [discriminate|].
  unfold hs_fields. revert E. generalize (accept_key sha1 key). intros acc E.
  destruct (hget (rheaders q) (text "sec-websocket-protocol")) as [p|];
  destruct (hget (rheaders q) (text "sec-websocket-version")) as [v|];
  cbn in E; injection E as <-; reflexivity.
Qed.
Lemma hs_nodup : forall acc q, NoDup (map fst (hs_fields acc q)).
Proof.
  intros acc q. unfold hs_fields.
  destruct (hget (rheaders q) (text "sec-websocket-protocol")), (hget (rheaders q) (text "sec-websocket-version"));
  cbn [opt_field app map fst]; repeat constructor; cbn [In]; intuition discriminate.
Qed.
Lemma hs_no_cl : forall acc q, existsb is_cl (map fst (hs_fields acc q)) = false.
Proof.
  intros acc q. unfold hs_fields.
  destruct (hget (rheaders q) (text "sec-websocket-protocol")), (hget (rheaders q) (text "sec-websocket-version")); reflexivity.
Qed.
Lemma hset_new : forall t k v, ~ In k (map fst t) -> hset t k v = t ++ [(k, v)].
Proof.
  induction t as [|[a b] t IH]; intros k v N; cbn; [reflexivity|].
  cbn in N. rewrite beq_neq by tauto. rewrite IH by tauto. reflexivity.
Qed.
Definition hs_resp (acc : bytes) (q : request) : response :=
  mkresp false (rprotocol q) 101 (Some (text "Switching Protocols")) (hs_fields acc q) o0 false.
Lemma hs_inv : forall acc q, Inv q (hs_resp acc q).
Proof. intros acc q. constructor; cbn -[hs_fields]; try discriminate; auto; try reflexivity. apply hs_nodup. Qed.
Lemma hs_te : forall acc q, ~ In TE (map fst (hs_fields acc q)).
Proof.
  intros acc q. unfold hs_fields.
  destruct (hget (rheaders q) (text "sec-websocket-protocol")), (hget (rheaders q) (text "sec-websocket-version"));
  cbn [opt_field app map fst In]; intuition discriminate.
Qed.

Lemma hs_chunk : forall acc q, rprotocol q = P11 -> chunked (ropts q) = true ->
  option_set q (hs_resp acc q) oCHUNKED = (true, granted (hs_resp acc q) oCHUNKED).
Proof.
  intros acc q P C. unfold option_set, hs_resp. cbn [started protocol opts]. rewrite P. unfold common.
  cbn [is11 negb andb oor o0 oCHUNKED gzip deflate lz4f orb chunked closing]. rewrite C.
  unfold granted. cbn [protocol]. reflexivity.
Qed.
Lemma hs_close1 : forall acc q, rprotocol q <> P11 ->
  option_set q (hs_resp acc q) oCHUNKED = (false, hs_resp acc q).
Proof.
  intros acc q P. destruct (option_set_cases q (hs_resp acc q) oCHUNKED) as [X|[X [_ [Y _]]]]; [exact X|].
  specialize (Y eq_refl). cbn in Y. contradiction.
Qed.
Lemma hs_close2 : forall acc q, closing (ropts q) = true ->
  option_set q (hs_resp acc q) oCLOSE = (true, granted (hs_resp acc q) oCLOSE).
Proof.
  intros acc q C. unfold option_set, hs_resp. cbn [started protocol opts]. unfold common, encodings.
  cbn [negb andb oor o0 oCLOSE gzip deflate lz4f orb chunked closing]. rewrite !andb_false_r, C. reflexivity.
Qed.
Lemma hs_choose : forall acc q, choose_encoding q (hs_resp acc q) = hs_resp acc q.
Proof. intros acc q. unfold choose_encoding. cbn [hs_resp protocol opts chunked o0]. now rewrite andb_false_r. Qed.
Lemma framing_step : forall fuel q r, framed r = false -> framing (S fuel) q r =
  match option_set q r oCHUNKED with
  | (true, r) => framing fuel q r
  | (false, r) => match option_set q r oCLOSE with
                  | (true, r) => framing fuel q r
                  | (false, r1) => Done (r1, map fst (headers r))
                  end
  end.
Proof.
  intros fuel q r F. cbn [framing]. unfold framed in F. rewrite F.
  destruct (option_set_cases q r oCHUNKED) as [X|[X _]]; rewrite X; reflexivity.
Qed.
Lemma framing_stop : forall fuel q r, framed r = true -> framing (S fuel) q r = Done (r, map fst (headers r)).
Proof. intros fuel q r F. cbn [framing]. unfold framed in F. now rewrite F. Qed.
Lemma hs_unframed : forall acc q, framed (hs_resp acc q) = false.
Proof. intros acc q. unfold framed. cbn [hs_resp headers opts chunked closing o0]. now rewrite hs_no_cl. Qed.
Lemma hs_new : forall B order acc q r' out, rprotocol q = P11 -> chunked (ropts q) = true ->
  leader B order q (hs_resp acc q) = Done (r', out) -> headers r' = hs_fields acc q ++ [(TE, text "chunked")].
Proof.
  intros B order acc q r' out P C E. apply leader_inv in E as [_ [F _]].
  rewrite hs_choose, (framing_step _ _ _ (hs_unframed acc q)), (hs_chunk acc q P C), framing_stop in F.
  - injection F as F _. rewrite <- F. unfold granted. cbn [headers hs_resp opts].
    rewrite oh_eq. unfold ce_of. cbn [oor o0 oCHUNKED chunked gzip deflate lz4f closing orb].
    apply hset_new. apply hs_te.
  - unfold framed, granted. cbn [opts oor oCHUNKED chunked]. now rewrite !orb_true_r.
Qed.
Lemma hs_old : forall B order acc q r' out, rprotocol q <> P11 -> closing (ropts q) = true ->
  leader B order q (hs_resp acc q) = Done (r', out) ->
  headers r' = hset (hs_fields acc q) CN (text "close") /\ needs_close r' = true.
Proof.
  intros B order acc q r' out P C E. apply leader_inv in E as [_ [F _]].
  rewrite hs_choose, (framing_step _ _ _ (hs_unframed acc q)), (hs_close1 acc q P), (hs_close2 acc q C), framing_stop in F.
  - injection F as F _. rewrite <- F. unfold granted. cbn [headers hs_resp opts needs_close].
    rewrite oh_eq. unfold ce_of. cbn [oor o0 oCLOSE chunked gzip deflate lz4f closing orb]. now split.
  - unfold framed, granted. cbn [opts oor oCLOSE closing]. now rewrite !orb_true_r.
Qed.
