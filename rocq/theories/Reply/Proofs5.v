(** What reaches the client; an order; the cases that go wrong. *)
From Coq Require Import NArith Arith List Bool Ascii String Permutation Sorted Lia ZifyBool ZifyNat ZifyN.
From Verif.Reply Require Import Model Spec Proofs Proofs2 Proofs3 Proofs4.
Import ListNotations.
Local Open Scope nat_scope.

(** * The last status *)
Lemma same_line : forall q l r, Forall not_status l -> started r = false ->
  protocol (run q r l) = protocol r /\ status (run q r l) = status r /\ reason (run q r l) = reason r.
Proof.
  intros q. unfold run. induction l as [|o l IH]; intros r F H; cbn; [repeat split; reflexivity|].
  inversion F as [|? ? F1 F2]; subst.
  assert (X : started (snd (call q r o)) = false /\ protocol (snd (call q r o)) = protocol r /\
              status (snd (call q r o)) = status r /\ reason (snd (call q r o)) = reason r).
  { destruct o as [c w|k v|o]; [destruct F1| |]; cbn [call].
    - unfold header_set. rewrite H. cbn. repeat split; congruence.
    - destruct (option_set_cases q r o) as [X|[X _]]; rewrite X; cbn; repeat split; congruence. }
  destruct X as [X1 [X2 [X3 X4]]]. destruct (IH _ F2 X1) as [Y1 [Y2 Y3]]. rewrite Y1, Y2, Y3. auto.
Qed.
Lemma last_status : forall B order q ops c w ops' r' out, (100 <= c)%N -> (c <= 999)%N -> Forall not_status ops' ->
  start B order q (run q fresh (ops ++ Status c w :: ops')) = Done (r', out) ->
  protocol r' = rprotocol q /\ status r' = c /\ reason r' = Some w.
Proof.
  intros B order q ops c w ops' r' out C1 C2 F E. apply start_inv in E as [r1 [E [_ [E1 [E2 [E3 _]]]]]].
  pose proof (leader_P B order q _ r1 out _ (closed_line q _ _ _) (conj eq_refl (conj eq_refl eq_refl)) E) as [L1 [L2 L3]].
  rewrite E1, E2, E3, L1, L2, L3. rewrite run_app.
  change (run q (run q fresh ops) (Status c w :: ops')) with (run q (snd (call q (run q fresh ops) (Status c w))) ops').
  pose proof (i_started _ _ (Inv_run q ops fresh (Inv_fresh q))) as H.
  set (r := run q fresh ops) in *.
  assert (X : snd (call q r (Status c w)) = mkresp false (rprotocol q) c (Some w) (headers r) (opts r) (needs_close r)).
  { cbn. unfold status_set. rewrite H. cbv zeta.
    replace ((c <? 100)%N || (999 <? c)%N) with false by (symmetry; apply orb_false_iff; split; apply N.ltb_ge; lia).
    cbn. reflexivity. }
  rewrite X. destruct (same_line q ops' _ F (eq_refl : started (mkresp false (rprotocol q) c (Some w) (headers r) (opts r) (needs_close r)) = false)) as [Y1 [Y2 Y3]].
  now rewrite Y1, Y2, Y3.
Qed.

(** * The last value *)
Lemma oh_get : forall o t k, ~ In k own_names -> hget (option_headers o t) k = hget t k.
Proof.
  intros o t k N. rewrite oh_eq. cbv zeta. cbn in N.
  assert (N1 : beq TE k = false) by (apply beq_neq; intro; apply N; now left).
  assert (N2 : beq CN k = false) by (apply beq_neq; intro; apply N; right; now left).
  assert (N3 : beq CE k = false) by (apply beq_neq; intro; apply N; right; right; now left).
  assert (N4 : beq VA k = false) by (apply beq_neq; intro; apply N; right; right; right; now left).
  destruct (chunked o), (ce_of o), (closing o); rewrite ?hget_hset, ?N1, ?N2, ?N3, ?N4; reflexivity.
Qed.
Lemma keeps_value : forall q k, ~ In k own_names -> forall l r, Forall (not_header k) l -> started r = false ->
  hget (headers (run q r l)) k = hget (headers r) k.
Proof.
  intros q k N. unfold run. induction l as [|o l IH]; intros r F H; cbn; [reflexivity|].
  inversion F as [|? ? F1 F2]; subst.
  assert (X : started (snd (call q r o)) = false /\ hget (headers (snd (call q r o))) k = hget (headers r) k).
  { destruct o as [c w|k' v|o]; cbn [call].
    - unfold status_set. rewrite H. cbv zeta. destruct ((c <? 100)%N || (999 <? c)%N); cbn; now split.
    - unfold header_set. rewrite H. cbn. split; [reflexivity|]. rewrite hget_hset. now rewrite beq_neq.
    - destruct (option_set_cases q r o) as [X|[X _]]; rewrite X; cbn; [now split|]. split; [exact H|now apply oh_get]. }
  destruct X as [X1 X2]. now rewrite (IH _ F2 X1).
Qed.
Lemma closed_value : forall q k v, ~ In k own_names -> closed q (fun r => hget (headers r) k = v).
Proof. intros q k v N r o H _ _. cbn. now rewrite oh_get. Qed.
Lemma last_value : forall B order q ops k v ops' r' out, ~ In k own_names -> Forall (not_header k) ops' ->
  start B order q (run q fresh (ops ++ Header k v :: ops')) = Done (r', out) ->
  In (k, v) (headers r') /\ forall v', In (k, v') (headers r') -> v' = v.
Proof.
  intros B order q ops k v ops' r' out N F E. apply sent_inv in E as [r1 [E [I [E4 _]]]].
  assert (X : hget (headers r1) k = Some v).
  { refine (leader_P B order q _ r1 out _ (closed_value q k (Some v) N) _ E). cbv beta.
    rewrite run_app.
    change (run q (run q fresh ops) (Header k v :: ops')) with (run q (snd (call q (run q fresh ops) (Header k v))) ops').
    pose proof (i_started _ _ (Inv_run q ops fresh (Inv_fresh q))) as H.
    rewrite keeps_value; auto.
    - cbn. unfold header_set. rewrite H. cbn. rewrite hget_hset. now rewrite beq_refl.
    - cbn. unfold header_set. rewrite H. reflexivity. }
  rewrite E4. split; [now apply hget_in|]. intros v' J. apply (in_hget _ _ _ (i_nodup q r1 I)) in J. congruence.
Qed.
(** * Nothing else *)
Lemma hset_In : forall t k v a b, In (a, b) (hset t k v) -> (a = k /\ b = v) \/ In (a, b) t.
Proof.
  induction t as [|[x y] t IH]; intros k v a b J; cbn in J.
  - destruct J as [J|[]]. injection J as -> ->. now left.
  - destruct (beq_spec x k) as [->|N].
    + destruct J as [J|J]; [injection J as -> ->; now left|right; now right].
    + destruct J as [J|J]; [injection J as -> ->; right; now left|]. apply IH in J as [J|J]; [now left|right; now right].
Qed.
Lemma oh_In : forall o t a b, In (a, b) (option_headers o t) -> In a own_names \/ In (a, b) t.
Proof.
  intros o t a b J. rewrite oh_eq in J. cbv zeta in J.
  destruct (chunked o), (ce_of o), (closing o);
  repeat (apply hset_In in J as [[-> _]|J]; [left; cbn; auto|]); now right.
Qed.
Lemma nothing_else : forall B order q ops r' out k v, start B order q (run q fresh ops) = Done (r', out) ->
  In (k, v) (headers r') -> In k own_names \/ In (Header k v) ops.
Proof.
  intros B order q ops r' out k v E J. apply sent_inv in E as [r1 [E [_ [E4 _]]]]. rewrite E4 in J.
  set (P := fun r => forall k v, In (k, v) (headers r) -> In k own_names \/ In (Header k v) ops).
  assert (X : P r1); [|now apply X].
  refine (leader_P B order q _ r1 out P _ _ E).
  - intros r o H _ _ a b Z. cbn in Z. apply oh_In in Z as [Z|Z]; [now left|now apply H].
  - assert (G : forall l r, incl l ops -> P r -> P (run q r l)).
    { unfold run. induction l as [|o l IH]; intros r K H; cbn; [exact H|].
      apply IH; [intros x Z; apply K; now right|]. destruct o as [c w|k' v'|o]; cbn [call].
      - unfold status_set. destruct (started r); [exact H|]. cbv zeta. destruct ((c <? 100)%N || (999 <? c)%N); exact H.
      - unfold header_set. destruct (started r); [exact H|]. cbn. intros a b Z. cbn in Z.
        apply hset_In in Z as [[-> ->]|Z]; [right; apply K; now left|now apply H].
      - destruct (option_set_cases q r o) as [X|[X _]]; rewrite X; cbn; [exact H|].
        intros a b Z. cbn in Z. apply oh_In in Z as [Z|Z]; [now left|now apply H]. }
    apply G; [intros x Z; exact Z|]. intros a b [].
Qed.
(** * Totality *)
Lemma start_cases : forall B order q r,
  (line_len r <= B -> exists r' out, start B order q r = Done (r', out)) /\
  (B < line_len r -> start B order q r = Bad).
Proof.
  intros B order q r. split; intro L; rewrite <- line_len_ok in L; unfold start.
  - destruct (leader_total B order q r L) as [r' [out E]]. rewrite E. eauto.
  - now rewrite (leader_bad B order q r L).
Qed.
Lemma start_nul : forall order q r r' out, start (line_len r) order q r = Done (r', out) ->
  (status r < 1000)%N ->
  exists line rest, status_line (protocol r) (status r) (reason r) line /\ List.concat out = line ++ [13; 0]%N ++ rest.
Proof.
  intros order q r r' out E L. apply start_inv in E as [r1 [E _]]. apply leader_inv in E as [_ [_ E]].
  rewrite line_len_ok, Nat.eqb_refl in E.
  destruct (status_text_spec r L) as [line [S1 S2]].
  exists line. eexists. split; [exact S1|]. rewrite E, <- line_len_ok, S2, app_length. cbn [crlf List.length].
  replace (List.length line + 2 - 1) with (List.length line + 1) by lia.
  rewrite firstn_app_2. cbn [firstn crlf]. rewrite <- !app_assoc. reflexivity.
Qed.

(** * An order *)
Fixpoint leb_name (a b : bytes) : bool :=
  match a, b with
  | [], _ => true
  | _ :: _, [] => false
  | x :: a', y :: b' => (fold_case x <? fold_case y)%N || (fold_case x =? fold_case y)%N && leb_name a' b'
  end.
Fixpoint ins (k : bytes) (l : list bytes) : list bytes :=
  match l with
  | [] => [k]
  | x :: r => if leb_name k x then k :: l else x :: ins k r
  end.
Definition isort (l : list bytes) : list bytes := fold_right ins [] l.
Lemma leb_le : forall a b, leb_name a b = true -> name_le a b.
Proof.
  induction a as [|x a IH]; intros [|y b] H; cbn in *; auto; try discriminate.
  apply orb_true_iff in H as [H|H]; [left; now apply N.ltb_lt|].
  apply andb_true_iff in H as [H1 H2]. apply N.eqb_eq in H1. right. split; auto.
Qed.
Lemma leb_total : forall a b, leb_name a b = false -> leb_name b a = true.
Proof.
  induction a as [|x a IH]; intros [|y b] H; cbn in *; auto; try discriminate.
  apply orb_false_iff in H as [H1 H2]. apply N.ltb_ge in H1.
  destruct (N.eqb_spec (fold_case x) (fold_case y)) as [E|E].
  - cbn in H2. rewrite E, N.eqb_refl, (IH _ H2). apply orb_true_r.
  - apply orb_true_iff. left. apply N.ltb_lt. lia.
Qed.
Lemma ins_perm : forall k l, Permutation (k :: l) (ins k l).
Proof.
  induction l as [|x l IH]; cbn; [apply Permutation_refl|]. destruct (leb_name k x); [apply Permutation_refl|].
  eapply Permutation_trans; [apply perm_swap|]. now constructor.
Qed.
Lemma ins_sorted : forall k l, Sorted name_le l -> Sorted name_le (ins k l).
Proof.
  intros k l H. induction H as [|x l H IH HR]; cbn; [repeat constructor|].
  destruct (leb_name k x) eqn:E.
  - constructor; [now constructor|]. constructor. now apply leb_le.
  - apply leb_total, leb_le in E. constructor; [exact IH|].
    destruct l as [|y l]; cbn; [now constructor|]. destruct (leb_name k y); constructor; auto.
    now inversion HR.
Qed.
Lemma isort_sorts : sorts isort.
Proof.
  intro l. split.
  - induction l as [|x l IH]; cbn; [constructor|]. eapply Permutation_trans; [|apply ins_perm]. now constructor.
  - induction l as [|x l IH]; cbn; [constructor|]. now apply ins_sorted.
Qed.

(** * The answer to an upgrade *)
Lemma hs_upgrade : forall acc q, hs_fields acc q = upgrade_fields (text "Upgrade") acc q.
Proof. reflexivity. Qed.
Lemma hs_closed : forall acc q, hset (hs_fields acc q) CN (text "close") = upgrade_fields (text "close") acc q.
Proof.
  intros acc q. unfold hs_fields, upgrade_fields. cbn [app hset].
  rewrite (beq_neq (text "Upgrade") CN) by discriminate. now rewrite beq_refl.
Qed.
Lemma hs_sent : forall B order sha1 q key r r' out, digest20 sha1 -> sorts order ->
  hget (rheaders q) (text "sec-websocket-key") = Some key -> handshake sha1 q fresh = Some r ->
  start B order q r = Done (r', out) -> 34 <> B ->
  exists line fields, status_line (rprotocol q) 101 (Some (text "Switching Protocols")) line /\
    List.concat out = head_text line fields /\ Permutation fields (headers r') /\
    (rprotocol q = P11 -> chunked (ropts q) = true ->
       headers r' = upgrade_fields (text "Upgrade") (rfc_accept sha1 key) q ++ [(text "Transfer-Encoding", text "chunked")]) /\
    (rprotocol q <> P11 -> closing (ropts q) = true ->
       headers r' = upgrade_fields (text "close") (rfc_accept sha1 key) q /\ needs_close r' = true).
Proof.
  intros B order sha1 q key r r' out D S K H E N.
  assert (L : List.length key = 24).
  { destruct (proj1 (handshake_some sha1 q fresh)) as [_ [_ [k [K1 K2]]]]; [congruence|]. congruence. }
  pose proof (handshake_eq sha1 q r key K H) as R. rewrite (accept_ok sha1 key D L) in R.
  fold (hs_resp (rfc_accept sha1 key) q) in R. subst r.
  apply start_inv in E as [r1 [E [_ [_ [_ [_ [E4 [_ E6]]]]]]]]. rewrite E4, E6.
  destruct (leader_ok B order q _ r1 out (hs_inv _ q) S E) as [line [fields [A [P [_ T]]]]].
  { rewrite line_len_ok. exact N. }
  exists line, fields. split; [exact A|]. split; [exact T|]. split; [exact P|]. split.
  - intros P1 P2. rewrite (hs_new B order _ q r1 out P1 P2 E). now rewrite hs_upgrade.
  - intros P1 P2. destruct (hs_old B order _ q r1 out P1 P2 E) as [X Y]. rewrite X, hs_closed. now split.
Qed.

(** * One framing *)
Lemma one_framing : forall B order q ops r' out, Forall plain ops ->
  Forall (fun o => ~ match o with Option o => chunked o = true | _ => False end) ops ->
  start B order q (run q fresh ops) = Done (r', out) ->
  ~ (values (text "Content-Length") (headers r') <> [] /\ values (text "Transfer-Encoding") (headers r') <> []).
Proof.
  intros B order q ops r' out P A E [H1 H2].
  destruct (sent_owned B order q ops r' out (headers r') P E (Permutation_refl _)) as [T _].
  change (text "Transfer-Encoding") with TE in H2. rewrite T in H2.
  apply sent_inv in E as [r1 [E [_ [E1 [E2 _]]]]]. rewrite E1 in H1. rewrite E2 in H2.
  assert (N : chunked (opts (run q fresh ops)) = false).
  { clear -A. assert (G : forall r, chunked (opts r) = false -> chunked (opts (run q r ops)) = false); [|now apply G].
    unfold run. induction A as [|o l Ao A IH]; intros r H; cbn; [exact H|]. apply IH.
    destruct o as [c w|k v|o]; cbn [call].
    - unfold status_set. destruct (started r); [exact H|]. cbv zeta. destruct ((c <? 100)%N || (999 <? c)%N); exact H.
    - unfold header_set. destruct (started r); exact H.
    - destruct (option_set_cases q r o) as [X|[X _]]; rewrite X; cbn; [exact H|]. rewrite H.
      destruct (chunked o); [exfalso; now apply Ao|reflexivity]. }
  apply leader_inv in E as [_ [F _]].
  assert (C : choose_encoding q (run q fresh ops) = run q fresh ops).
  { unfold choose_encoding. now rewrite N, andb_false_r. }
  rewrite C in F. clear C. set (r := run q fresh ops) in *.
  assert (CL : existsb is_cl (map fst (headers r)) = true).
  { apply values_nonempty in H1 as [k [v [I S]]]. apply is_cl_iff in S.
    set (Q := fun x : response => forall k, In k (map fst (headers x)) -> is_cl k = true -> In k (map fst (headers r))).
    assert (X : Q r1).
    { refine (proj1 (framing_P q Q 3 r r1 _ _ _ F)); [|intros a Z _; exact Z].
      intros x o Hx _ _ a Z W. cbn in Z. apply in_map_iff in Z as [[a' b] [Z1 Z2]]. cbn in Z1. subst a'.
      apply oh_In in Z2 as [Z2|Z2].
      - exfalso. apply is_cl_iff in W. cbn in Z2. destruct Z2 as [<-|[<-|[<-|[<-|[]]]]]; vm_compute in W; discriminate W.
      - apply Hx; [|exact W]. now apply (in_map fst) in Z2. }
    apply existsb_exists. exists k. split; [|exact S]. apply X; [|exact S]. now apply (in_map fst) in I. }
  rewrite framing_stop in F by (unfold framed; now rewrite CL).
  injection F as F _. rewrite <- F in H2. unfold te_of in H2. rewrite N in H2. cbn in H2. congruence.
Qed.

(** * The usual beginning of a response *)
Lemma standard_ok : forall q code name type, (100 <= code)%N -> (code <= 999)%N -> closing (ropts q) = true ->
  let r := standard q fresh code name type in
  protocol r = rprotocol q /\ status r = code /\ reason r = Some name /\
  hget (headers r) (text "Content-Type") = Some type /\
  (chunked (opts r) = true <-> rprotocol q = P11 /\ chunked (ropts q) = true) /\
  closing (opts r) = negb (chunked (opts r)).
Proof.
  intros q code name type C1 C2 K. unfold standard, status_set, header_set. cbn [started fresh].
  replace ((code <? 100)%N || (999 <? code)%N) with false by (symmetry; apply orb_false_iff; split; apply N.ltb_ge; lia).
  cbv zeta. cbn [snd started protocol status reason headers opts needs_close fresh hset].
  set (r := mkresp _ _ _ _ _ _ _).
  assert (X : hget (headers r) (text "Content-Type") = Some type) by (cbn; now rewrite ?beq_refl).
  assert (Y : forall o, hget (option_headers o (headers r)) (text "Content-Type") = Some type).
  { intro o. rewrite oh_get; [exact X|]. cbn; intuition discriminate. }
  destruct (option_set_cases q r oCHUNKED) as [E|[E [_ [P [_ [_ C]]]]]]; rewrite E.
  - destruct (option_set_cases q r oCLOSE) as [F|[F _]]; rewrite F.
    + exfalso. unfold option_set, common, encodings in F. cbn in F. rewrite !andb_false_r, ?orb_false_r, K in F. discriminate F.
    + cbn [snd]. unfold granted. cbn [protocol status reason opts headers]. repeat split; auto.
      * cbn in H. discriminate H.
      * cbn in H. discriminate H.
      * intros [A B]. exfalso. unfold option_set, common, encodings in E. cbn in E. rewrite A, B in E. discriminate E.
  - cbn [snd]. unfold granted. cbn [protocol status reason opts headers]. repeat split; auto.
    unfold common in C. cbn in C. now rewrite !orb_false_r in C.
Qed.
