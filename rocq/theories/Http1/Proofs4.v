(** Proofs about the end of a response: delivery and the interim response. *)
From Coq Require Import NArith ZArith List Bool Lia ZifyBool ZifyNat ZifyN.
From Verif Require Import Http1.Model Http1.Spec Http1.Proofs Http1.Proofs2 Http1.Proofs3.
Import ListNotations.
Local Open Scope N_scope.

Lemma pending_empty : forall r, leader r = [] -> raw r = [] -> pending r = [].
Proof.
  intros r A B. unfold pending. rewrite A, B. unfold cutn, cat. cbn.
  destruct (N.to_nat (raw_offset r)); reflexivity.
Qed.

(** With a socket that takes something every time, everything is written. *)
Lemma perform_drains : forall ans r tl, WI r -> CI r -> bytes_written r = len (sent r) ->
  conn r = true -> in_error r = false -> max_write r <> 0%Z -> Forall takes ans ->
  len (pending r) <= N.of_nat (length ans) ->
  exists rv r' ans', perform_write false ans r tl = OK (rv, r', ans')
    /\ leader r' = [] /\ raw r' = [] /\ in_error r' = false
    /\ complete r' = closed r || complete r.
Proof.
  induction ans as [|a ans IH]; intros r tl W C BW CN ER MW T L; rewrite perform_eq;
    rewrite CN, ER; cbn [negb orb];
    destruct (choose_ok r W) as (r1 & -> & W1 & S1 & P1 & Q1 & Q2 & Q3 & Q4 & Q5 & Q6 & Q7 & B);
    destruct S1 as (S1 & S2 & S3 & S4 & S5 & S6 & S7 & S8 & S9 & S10);
    destruct (bucket r1) as [b|].
  - exfalso. destruct B as (B1 & t & B2). rewrite <- P1 in L. unfold pending in L. rewrite B2 in L.
    change (cat (b :: t)) with (odata b ++ cat t) in L. rewrite cutn_app in L by (apply N.lt_le_incl; exact B1).
    clear - L B1. unfold len, cutn in *. rewrite app_length, skipn_length in L. cbn [length] in L. lia.
  - destruct B as [B1 B2]. eexists _, _, _. split; [reflexivity|].
    cbn [set_status leader raw in_error complete]. rewrite S6, Q2. repeat split; congruence.
  - cbn [andb]. destruct a as [n| |]; [|exfalso; apply Forall_inv in T; exact T|exfalso; apply Forall_inv in T; exact T].
    destruct B as (B1 & t & B2). cbv zeta.
    set (k := N.min n _).
    assert (K : 1 <= k <= len (odata b) - raw_offset r1).
    { pose proof (Forall_inv T) as T1. cbn [takes] in T1. subst k.
      clear - T1 B1 MW S8. destruct (0 <=? max_write r1)%Z eqn:M; lia. }
    set (csw := if (0 <? can_still_write r1)%Z then _ else _).
    destruct (took_ok r1 b t k csw W1 B2 (proj2 K) B1) as (X1 & X2 & X3 & X4 & X5 & X6 & X7 & X8 & X9); [congruence|].
    set (r2 := set_sent _ _ _ _ _) in *.
    destruct X2 as (Y1 & Y2 & Y3 & Y4 & Y5 & Y6 & Y7 & Y8 & Y9 & Y10).
    assert (C2 : CI r2).
    { apply (CI_same r1); auto; try congruence. apply (CI_same r); auto. }
    destruct (IH r2 (tl + Z.of_N k)%Z X1 C2 X4) as (rv & r' & ans' & A & D1 & D2 & D3 & D4);
      [congruence|congruence|congruence|exact (Forall_inv_tail T)| |].
    { rewrite P1 in X9. cbn [length] in L. clear - X9 L K. lia. }
    exists rv, r', ans'. split; [exact A|]. split; [exact D1|]. split; [exact D2|]. split; [exact D3|].
    rewrite D4, Y6, X7, S6, Q2. reflexivity.
  - destruct B as [B1 B2]. eexists _, _, _. split; [reflexivity|].
    cbn [set_status leader raw in_error complete]. rewrite S6, Q2. repeat split; congruence.
Qed.

(** Without room in the limit nothing is written. *)
Lemma perform_zero : forall il ans r tl rv r' ans', WI r -> max_write r = 0%Z ->
  perform_write il ans r tl = OK (rv, r', ans') -> sent r' = sent r.
Proof.
  intros il. induction ans as [|a ans IH]; intros r tl rv r' ans' W M H; rewrite perform_eq in H;
  (destruct (negb (conn r) || in_error r); [injection H as <- <- <-; reflexivity|]);
  destruct (choose_ok r W) as (r1 & E & W1 & S1 & P1 & Q1 & Q2 & Q3 & Q4 & Q5 & Q6 & Q7 & B);
  rewrite E in H; destruct S1 as (S1 & S2 & S3 & S4 & S5 & S6 & S7 & S8 & S9 & S10);
  (destruct (bucket r1) as [b|]; [|injection H as <- <- <-; exact Q1]);
  (destruct (il && (can_still_write r1 =? 0)%Z); [injection H as <- <- <-; exact Q1|]).
  - injection H as <- <- <-. exact Q1.
  - destruct a as [n| |]; [|injection H as <- <- <-; exact Q1|injection H as <- <- <-; exact Q1].
    cbv zeta in H. rewrite S8, M in H. change ((0 <=? 0)%Z) with true in H. cbv iota in H.
    change (Z.to_N 0) with 0 in H. rewrite !N.min_0_r in H.
    destruct B as (B1 & t & B2).
    set (csw := if (0 <? can_still_write r1)%Z then _ else _) in H.
    change (N.to_nat 0) with 0%nat in H. cbn [firstn] in H.
    match type of H with perform_write il ans ?R ?TL = _ =>
      assert (W2 : WI R) by (destruct W1 as (V1 & V2 & V3 & V4 & V5 & V6);
        split; [exact V1|]; split; [exact V2|]; split; [exact V3|]; split; [exact V4|]; split; [exact V5|];
        cbn [set_sent leader raw raw_offset]; rewrite N.add_0_r; exact V6);
      pose proof (IH R TL rv r' ans' W2) as G end.
    rewrite G; [cbn [set_sent sent]; rewrite app_nil_r; exact Q1|cbn [set_sent max_write]; congruence|exact H].
Qed.

(** ** What the invariant says to the user *)
Lemma inv_wire : forall hdr pre acc r, Inv hdr pre acc r -> started r = true ->
  exists ds wire, response_wire (opt_chunked r) (closed r) hdr ds wire
    /\ prefix (sent r) (pre ++ wire) /\ prefix (concat ds) acc
    /\ (closed r = true -> concat ds = acc)
    /\ (leader r = [] -> raw r = [] -> sent r = pre ++ wire).
Proof.
  intros hdr pre acc r (I1 & I2 & I3 & I4 & I5 & I6 & ds & w & I7 & I8 & I9 & I10) ST.
  rewrite ST in I10.
  exists ds, (concat hdr ++ w ++ tail_of (opt_chunked r && closed r)).
  split. { unfold response_wire, body_wire, tail_of in *. destruct (opt_chunked r).
    - exists w. split; [exact I7|]. reflexivity.
    - cbn. rewrite I7, app_nil_r. reflexivity. }
  split; [exists (pending r); rewrite <- I10; reflexivity|].
  split; [exists (cat (output r)); exact I8|].
  split. { intros CL. destruct (I5 CL) as [_ O]. rewrite O in I8. cbn in I8. rewrite app_nil_r in I8. congruence. }
  intros L R. rewrite (pending_empty r L R), app_nil_r in I10. exact I10.
Qed.

Lemma inv_unstarted : forall hdr pre acc r, Inv hdr pre acc r -> started r = false -> sent r = pre.
Proof.
  intros hdr pre acc r (I1 & I2 & I3 & I4 & I5 & I6 & ds & w & I7 & I8 & I9 & I10) ST.
  destruct (I6 ST) as [L R]. destruct (I9 ST) as [-> ->].
  rewrite (pending_empty r L R), ST, !app_nil_r in I10. rewrite I10.
  destruct (closed r) eqn:C; [destruct (I5 eq_refl); congruence|].
  rewrite andb_false_r. cbn. rewrite app_nil_r. reflexivity.
Qed.

Lemma inv_complete : forall hdr pre acc r, Inv hdr pre acc r -> complete r = true -> in_error r = false ->
  closed r = true /\ started r = true /\ leader r = [] /\ raw r = [].
Proof.
  intros hdr pre acc r (I1 & I2 & I3 & I4 & I5 & I6 & _) CM ER.
  destruct (I2 CM) as [X|(X & Y & Z)]; [congruence|]. destruct (I5 X). auto.
Qed.

Lemma wire_chunked : forall hdr ds wire, response_wire true true hdr ds wire ->
  exists w, chunk_wire ds w /\ wire = concat hdr ++ w.
Proof.
  intros hdr ds wire (w & S0 & ->). exists (w ++ [48] ++ crlf ++ crlf). split; [|reflexivity].
  induction S0.
  - cbn. apply (cw_last [48]); [|cbn; lia]. constructor. unfold hexdigit. lia.
  - rewrite <- !app_assoc. constructor; assumption.
Qed.

(** The connection never goes away in the model and errors come from the
    socket only. *)
Lemma perform_conn : forall il ans r tl rv r' ans',
  perform_write il ans r tl = OK (rv, r', ans') -> WI r -> CI r -> bytes_written r = len (sent r) ->
  conn r' = conn r /\ max_write r' = max_write r.
Proof.
  intros il ans r tl rv r' ans' H W C B.
  destruct (perform_ok il ans r tl W C B) as (a & b & c & A & P). rewrite A in H.
  injection H as <- <- <-. destruct P as (_ & _ & (_ & _ & _ & _ & _ & _ & _ & M & CN & _) & _). auto.
Qed.

Lemma flush_conn : forall il hdr f ans pre acc r b r' ans', Inv hdr pre acc r ->
  response_flush il hdr f ans r = OK (b, r', ans') -> conn r' = conn r.
Proof.
  intros il hdr f ans pre acc r b r' ans' I H. rewrite flush_ready in H.
  destruct (closed r) eqn:CL; [injection H as <- <- <-; reflexivity|].
  destruct (ready_ok hdr f pre acc r I CL) as (r3 & E & I3 & _ & _ & _ & _ & _ & CN & _).
  rewrite E in H. destruct (perform_write il ans r3 0) as [[[rv r4] a4]|] eqn:P; [|discriminate].
  injection H as <- <- <-. destruct I3 as (W & C & B & _).
  destruct (perform_conn _ _ _ _ _ _ _ P W C B). congruence.
Qed.

Lemma auto_conn : forall il hdr ans pre acc r b r' ans', Inv hdr pre acc r ->
  auto_flush il hdr ans r = OK (b, r', ans') -> conn r' = conn r.
Proof.
  intros il hdr ans pre acc r b r' ans' I H. unfold auto_flush in H. destruct (over_trigger r).
  - destruct (response_flush il hdr false ans r) as [[[x y] z]|] eqn:F; [|discriminate].
    injection H as <- <- <-. exact (flush_conn _ _ _ _ _ _ _ _ _ _ I F).
  - injection H as <- <- <-. reflexivity.
Qed.

Lemma append_conn : forall il hdr d ans pre acc r b r' ans', Inv hdr pre acc r ->
  response_append il hdr d ans r = OK (b, r', ans') -> conn r' = conn r.
Proof.
  intros il hdr d ans pre acc r b r' ans' I H.
  destruct (append_inv_auto il hdr d ans pre acc r I) as [R|(o & n & ni & I1 & E)].
  - rewrite R in H. injection H as <- <- <-. reflexivity.
  - rewrite E in H. exact (auto_conn _ _ _ _ _ _ _ _ _ I1 H).
Qed.

Lemma bchain_conn : forall il hdr d al ans pre acc r b r' ans', Inv hdr pre acc r ->
  len d <= al < 2 ^ 31 ->
  response_append_bchain il hdr d al ans r = OK (b, r', ans') -> conn r' = conn r.
Proof.
  intros il hdr d al ans pre acc r b r' ans' I L H.
  destruct (bchain_inv_auto il hdr d al ans pre acc r I L) as [R|(o & n & ni & I1 & E)].
  - rewrite R in H. injection H as <- <- <-. reflexivity.
  - rewrite E in H. exact (auto_conn _ _ _ _ _ _ _ _ _ I1 H).
Qed.

Lemma step_conn : forall hdr o il ans pre acc r b r' ans', Inv hdr pre acc r -> op_ok (o, il, ans) ->
  step hdr o il ans r = OK (b, r', ans') -> conn r' = conn r.
Proof.
  intros hdr o il ans pre acc r b r' ans' I K H. destruct o as [d|d al|f| |n|]; cbn [step op_ok] in *.
  - exact (append_conn _ _ _ _ _ _ _ _ _ _ I H).
  - exact (bchain_conn _ _ _ _ _ _ _ _ _ _ _ I K H).
  - exact (flush_conn _ _ _ _ _ _ _ _ _ _ I H).
  - destruct (perform_write il ans (set_limits r (max_write r) (max_write r)) 0) as [[[rv r4] a4]|] eqn:P; [|discriminate].
    injection H as <- <- <-. destruct I as (W & C & B & _).
    destruct (perform_conn _ _ _ _ _ _ _ P W C B) as [A _]. exact A.
  - injection H as <- <- <-. reflexivity.
  - contradiction.
Qed.

Lemma steps_conn : forall hdr os pre acc r bs r', Inv hdr pre acc r -> Forall op_ok os ->
  steps hdr os r = OK (bs, r') -> conn r' = conn r.
Proof.
  intros hdr. induction os as [|[[o il] ans] os IH]; intros pre acc r bs r' I F H.
  - injection H as <- <-. reflexivity.
  - cbn [steps] in H.
    destruct (step_ok hdr o il ans pre acc r I (Forall_inv F)) as (b & r1 & a1 & A & B & _).
    pose proof (step_conn _ _ _ _ _ _ _ _ _ _ I (Forall_inv F) A) as C.
    rewrite A in H. destruct (steps hdr os r1) as [[bs1 r2]|] eqn:E; [|discriminate].
    injection H as <- <-. rewrite (IH _ _ _ _ _ B (Forall_inv_tail F) E). exact C.
Qed.

(** Closing a response on a socket that keeps taking bytes delivers it. *)
Lemma final_delivers : forall hdr pre acc r, Inv hdr pre acc r ->
  closed r = false -> in_error r = false -> conn r = true -> max_write r <> 0%Z ->
  exists n : nat, forall ans, Forall takes ans -> (n <= length ans)%nat ->
  exists b r' ans', response_flush false hdr true ans r = OK (b, r', ans')
    /\ complete r' = true /\ in_error r' = false
    /\ exists ds wire, response_wire (opt_chunked r) true hdr ds wire
       /\ concat ds = acc /\ sent r' = pre ++ wire.
Proof.
  intros hdr pre acc r I CL ER CN MW.
  destruct (ready_ok hdr true pre acc r I CL) as (r3 & RD & I3 & ST & OU & CL3 & SE & ER3 & CN3 & MW3 & OC & _).
  exists (length (pending r3)). intros ans T LP. rewrite flush_ready, CL, RD.
  pose proof I3 as (W3 & C3 & B3 & _).
  destruct (perform_drains ans r3 0 W3 C3 B3) as (rv & r' & ans' & P & L' & R' & E' & M');
    [congruence|congruence|congruence|exact T|unfold len; lia|].
  rewrite P. eexists _, r', ans'. split; [reflexivity|].
  rewrite CL3 in M'. cbn [orb] in M'. split; [exact M'|]. split; [exact E'|].
  destruct (perform_ok false ans r3 0 W3 C3 B3) as (rv2 & r2 & a2 & P2 & PR2).
  rewrite P in P2. injection P2 as <- <- <-.
  pose proof (Inv_PR _ _ _ _ _ I3 PR2) as I'.
  destruct PR2 as (_ & _ & (_ & _ & Q3 & _ & Q5 & Q6 & _) & _).
  destruct (inv_wire hdr pre acc r' I') as (ds' & wire' & RW' & _ & _ & AC' & SW'); [congruence|].
  exists ds', wire'. rewrite Q6, CL3, Q3, OC in RW'. split; [exact RW'|].
  split; [apply AC'; congruence|apply SW'; assumption].
Qed.

(** ** The interim response *)
Definition continue_text : list N :=
  [72;84;84;80;47;49;46;49;32;49;48;48;32;67;111;110;116;105;110;117;101;13;10;13;10].

Lemma continue_ok : forall il ans c k t, exists r' ans',
  send_continue il ans (fresh c k t) = OK (r', ans')
  /\ prefix (sent r') continue_text /\ opt_chunked r' = c
  /\ (leader r' = [] -> sent r' = continue_text /\ forall hdr, Inv hdr continue_text [] r')
  /\ (leader r' <> [] -> forall hdr f il' ans2, response_flush il' hdr f ans2 r' = Crash).
Proof.
  intros il ans c k t. unfold send_continue. cbn [fresh leader].
  set (text := [72;84;84;80;47;49;46;49;32;49;48;48;32;67;111;110;116;105;110;117;101;13;10;13;10]).
  set (r1 := set_limits _ _ _).
  assert (W1 : WI r1).
  { subst r1. split; [constructor; [reflexivity|constructor]|]. split; [constructor|]. split; [constructor|].
    split; [reflexivity|]. split; [cbn; lia|]. cbn. lia. }
  assert (C1 : CI r1) by (intros H; discriminate).
  destruct (perform_ok il ans r1 0 W1 C1 eq_refl) as (rv & r2 & ans' & -> & PR2).
  destruct PR2 as (P1 & P2 & P3 & P4 & P5 & P6 & P7 & P8).
  destruct P3 as (S1 & S2 & S3 & S4 & S5 & S6 & S7 & S8 & S9 & S10).
  assert (E : sent r2 ++ pending r2 = continue_text) by (rewrite P4; reflexivity).
  assert (R : raw r2 = []) by (apply P8; reflexivity).
  exists (set_limits r2 (max_write r2) (max_write r2)), ans'. split; [reflexivity|].
  cbn [set_limits sent leader opt_chunked].
  split; [exists (pending r2); rewrite E; reflexivity|].
  split; [exact S3|]. split.
  - intros L. assert (SE : sent r2 = continue_text).
    { rewrite (pending_empty r2 L R), app_nil_r in E. exact E. }
    split; [exact SE|]. intros hdr.
    split; [exact P1|]. split; [exact P2|]. split; [exact P5|].
    cbn [set_limits output closed started leader raw opt_chunked sent].
    rewrite S1, S5, S6, S3. cbn [r1 set_limits set_chains output started closed opt_chunked fresh].
    split; [constructor|]. split; [discriminate|]. split; [intros _; split; assumption|].
    exists [], []. split; [destruct c; [constructor|reflexivity]|]. split; [reflexivity|].
    split; [auto|]. rewrite andb_false_r. cbn [tail_of app].
    change (pending (set_limits r2 (max_write r2) (max_write r2))) with (pending r2).
    rewrite E. reflexivity.
  - intros NL hdr f il' ans2. unfold response_flush. cbn [set_limits closed started leader].
    rewrite S6, S5. cbn [r1 set_limits set_chains closed started fresh].
    destruct (leader r2); [congruence|reflexivity].
Qed.

(** ** Calls in the middle of a body *)
Lemma consumes_pinv : forall rest lens body r s os r' s', Forall (fun n => 0 < n) lens ->
  PInv body rest r s -> ~ In Closed (answers s) -> consumes r s lens = (os, r', s') ->
  ~ In Closed (answers s') /\ exists body', PInv body' rest r' s'.
Proof.
  induction lens as [|n lens IH]; intros body r s os r' s' P I NC H; cbn [consumes] in H.
  - injection H as <- <- <-. split; [exact NC|]. exists body. exact I.
  - destruct (consume r s n) as [[o r1] s1] eqn:C.
    destruct (consumes r1 s1 lens) as [[os1 r2] s2] eqn:CS. injection H as <- <- <-.
    destruct (consume_plain _ _ _ _ _ _ _ _ (Forall_inv P) I NC C) as [(pre & A) Q].
    assert (NC1 : ~ In Closed (answers s1))
      by (intros X; apply NC; rewrite A; apply in_or_app; right; exact X).
    assert (I1 : exists b1, PInv b1 rest r1 s1).
    { destruct Q as [(x & b1 & _ & _ & _ & _ & I1 & _)|[(_ & I1 & _)|(_ & _ & I1 & _)]]; eauto. }
    destruct I1 as [b1 I1]. exact (IH b1 r1 s1 os1 r2 s2 (Forall_inv_tail P) I1 NC1 CS).
Qed.

(** ** Appending is accepted while the response is open *)
Definition Open (r : res) : Prop :=
  in_error r = false /\ closed r = false /\ opt_close r || opt_chunked r = true.

Lemma perform_open : forall il ans r tl rv r' ans', ~ In Broken ans ->
  perform_write il ans r tl = OK (rv, r', ans') -> WI r -> in_error r' = in_error r.
Proof.
  intros il. induction ans as [|a ans IH]; intros r tl rv r' ans' NB H W; rewrite perform_eq in H;
  (destruct (negb (conn r) || in_error r); [injection H as <- <- <-; reflexivity|]);
  destruct (choose_ok r W) as (r1 & E & W1 & S1 & P1 & Q1 & Q2 & Q3 & Q4 & Q5 & Q6 & Q7 & B);
  rewrite E in H;
  (destruct (bucket r1) as [b|]; [|injection H as <- <- <-; exact Q3]);
  (destruct (il && (can_still_write r1 =? 0)%Z); [injection H as <- <- <-; exact Q3|]).
  - injection H as <- <- <-. exact Q3.
  - destruct a as [n| |]; [|injection H as <- <- <-; exact Q3|exfalso; apply NB; left; reflexivity].
    cbv zeta in H. destruct B as (B1 & t & B2).
    set (k := N.min n _) in H.
    assert (K : k <= len (odata b) - raw_offset r1).
    { subst k. clear. destruct (0 <=? max_write r1)%Z; lia. }
    set (csw := if (0 <? can_still_write r1)%Z then _ else _) in H.
    rewrite (IH _ _ _ _ _ (fun X => NB (or_intror X)) H); [exact Q3|].
    destruct W1 as (V1 & V2 & V3 & V4 & V5 & V6).
    split; [exact V1|]; split; [exact V2|]; split; [exact V3|]; split; [exact V4|]; split; [exact V5|].
    cbn [set_sent leader raw raw_offset]. rewrite B2. cbn [offok]. clear - K B1. lia.
Qed.

Lemma perform_Open : forall il ans r tl rv r' ans', ~ In Broken ans ->
  perform_write il ans r tl = OK (rv, r', ans') -> WI r -> CI r -> bytes_written r = len (sent r) ->
  Open r -> Open r'.
Proof.
  intros il ans r tl rv r' ans' NB H W C B (O1 & O2 & O3).
  pose proof (perform_open _ _ _ _ _ _ _ NB H W) as E.
  destruct (perform_ok il ans r tl W C B) as (a & b & c & A & P). rewrite A in H.
  injection H as <- <- <-. destruct P as (_ & _ & (_ & _ & S3 & S4 & _ & S6 & _) & _).
  split; [congruence|]. split; congruence.
Qed.

Lemma ready_close : forall hdr f r r3, ready hdr f r = OK r3 ->
  opt_close r3 = opt_close r.
Proof.
  assert (LK : forall r d r', link_raw r d = OK r' -> opt_close r' = opt_close r).
  { intros r d r' H. unfold link_raw in H.
    destruct (raw_last r); [destruct (match rev (raw r) with b' :: _ => _ | [] => _ end)|];
      try discriminate; injection H as <-; reflexivity. }
  assert (EB : forall o r r', encode_blocks o r = OK r' -> opt_close r' = opt_close r).
  { induction o as [|b o IH]; intros r r' H; cbn [encode_blocks] in H; [injection H as <-; reflexivity|].
    destruct (2 ^ 31 <=? len (odata b)); [discriminate|].
    destruct (process_output _ _) as [|x d]; [auto|].
    destruct (link_raw r (x :: d)) as [r1|] eqn:L; [|discriminate].
    rewrite (IH _ _ H). exact (LK _ _ _ L). }
  intros hdr f r r3 H. unfold ready in H.
  set (R1 := if started r then OK r else _) in H.
  destruct R1 as [r1|] eqn:E1; [|discriminate].
  assert (C1 : opt_close r1 = opt_close r).
  { subst R1. destruct (started r); [injection E1 as <-; reflexivity|].
    destruct (leader r); [injection E1 as <-; reflexivity|discriminate]. }
  unfold encode_output_raw in H. destruct (raw_assert (raw r1) (raw_last r1)); [|discriminate].
  destruct (encode_blocks (output r1) r1) as [r2|] eqn:E2; [|discriminate].
  pose proof (EB _ _ _ E2) as C2.
  destruct f; [destruct (opt_chunked r)|].
  - rewrite (LK _ _ _ H). cbn [set_status set_output opt_close]. congruence.
  - injection H as <-. cbn [set_status set_output opt_close]. congruence.
  - injection H as <-. cbn [set_status set_output opt_close]. congruence.
Qed.

Lemma flush_Open : forall il hdr ans pre acc r b r' ans', Inv hdr pre acc r -> Open r -> ~ In Broken ans ->
  response_flush il hdr false ans r = OK (b, r', ans') -> Open r'.
Proof.
  intros il hdr ans pre acc r b r' ans' I (O1 & O2 & O3) NB H. rewrite flush_ready, O2 in H.
  destruct (ready_ok hdr false pre acc r I O2) as (r3 & E & I3 & _ & _ & CL & _ & ER & _ & _ & OC & _).
  pose proof (ready_close _ _ _ _ E) as OK3.
  rewrite E in H. destruct (perform_write il ans r3 0) as [[[rv r4] a4]|] eqn:P; [|discriminate].
  injection H as <- <- <-. destruct I3 as (W & C & B & _).
  apply (perform_Open _ _ _ _ _ _ _ NB P W C B). split; [congruence|]. split; congruence.
Qed.

Lemma auto_Open : forall il hdr ans pre acc r b r' ans', Inv hdr pre acc r -> Open r -> ~ In Broken ans ->
  auto_flush il hdr ans r = OK (b, r', ans') -> Open r' /\ b = true.
Proof.
  intros il hdr ans pre acc r b r' ans' I O0 NB H. unfold auto_flush in H. destruct (over_trigger r).
  - destruct (response_flush il hdr false ans r) as [[[x y] z]|] eqn:F; [|discriminate].
    injection H as <- <- <-. split; [|reflexivity]. exact (flush_Open _ _ _ _ _ _ _ _ _ I O0 NB F).
  - injection H as <- <- <-. split; [exact O0|reflexivity].
Qed.

Lemma Open_accepts : forall r, Open r -> refused r = false.
Proof.
  intros r (A & B & C). unfold refused. rewrite A, B, C. cbn. rewrite andb_false_r. reflexivity.
Qed.

Lemma step_Open : forall hdr o il ans pre acc r b r' ans', Inv hdr pre acc r -> Open r ->
  op_ok (o, il, ans) -> op_open (o, il, ans) -> step hdr o il ans r = OK (b, r', ans') ->
  Open r' /\ appended [(o, il, ans)] [b] = offered [(o, il, ans)].
Proof.
  intros hdr o il ans pre acc r b r' ans' I O0 K NB H.
  destruct o as [d|d al|f| |n|]; cbn [step op_ok op_open appended offered] in *.
  - assert (G : Open r' /\ b = true).
    { destruct (append_inv_auto il hdr d ans pre acc r I) as [R|(o & n & ni & I1 & E)].
      - exfalso. unfold response_append in R. rewrite (Open_accepts r O0) in R.
        destruct (match rev (output r) with [] => _ | _ => _ end) as [[? ?] ?].
        destruct (spread _ _ _ _) as [? ?]. unfold auto_flush in R.
        destruct (over_trigger _); [destruct (response_flush _ _ _ _ _) as [[[? ?] ?]|]|]; discriminate.
      - rewrite E in H. exact (auto_Open _ _ _ _ _ _ _ _ _ I1 O0 NB H). }
    destruct G as [G ->]. split; [exact G|reflexivity].
  - assert (G : Open r' /\ b = true).
    { destruct (bchain_inv_auto il hdr d al ans pre acc r I K) as [R|(o & n & ni & I1 & E)].
      - exfalso. unfold response_append_bchain in R. rewrite (Open_accepts r O0) in R. unfold auto_flush in R.
        destruct (over_trigger _); [destruct (response_flush _ _ _ _ _) as [[[? ?] ?]|]|]; discriminate.
      - rewrite E in H. exact (auto_Open _ _ _ _ _ _ _ _ _ I1 O0 NB H). }
    destruct G as [G ->]. split; [exact G|reflexivity].
  - destruct f; [contradiction|]. split; [exact (flush_Open _ _ _ _ _ _ _ _ _ I O0 NB H)|].
    destruct b; reflexivity.
  - destruct (perform_write il ans (set_limits r (max_write r) (max_write r)) 0) as [[[rv r4] a4]|] eqn:P; [|discriminate].
    injection H as <- <- <-. destruct I as (W & C & B & _).
    split; [exact (perform_Open _ _ _ _ _ _ _ NB P W C B O0)|]. destruct (0 <=? rv)%Z; reflexivity.
  - injection H as <- <- <-. split; [exact O0|reflexivity].
  - contradiction.
Qed.

Lemma offered_cons : forall o os, offered (o :: os) = offered [o] ++ offered os.
Proof. intros [[o il] ans] os. destruct o; cbn [offered]; rewrite ?app_nil_r; reflexivity. Qed.

Lemma steps_Open : forall hdr os pre acc r bs r', Inv hdr pre acc r -> Open r -> Forall op_ok os ->
  Forall op_open os -> steps hdr os r = OK (bs, r') -> appended os bs = offered os /\ Open r'.
Proof.
  intros hdr. induction os as [|[[o il] ans] os IH]; intros pre acc r bs r' I O0 F G H.
  - injection H as <- <-. split; [reflexivity|exact O0].
  - cbn [steps] in H.
    destruct (step_ok hdr o il ans pre acc r I (Forall_inv F)) as (b & r1 & a1 & A & B & _).
    destruct (step_Open _ _ _ _ _ _ _ _ _ _ I O0 (Forall_inv F) (Forall_inv G) A) as [O1 P1].
    rewrite A in H. destruct (steps hdr os r1) as [[bs1 r2]|] eqn:E; [|discriminate].
    injection H as <- <-.
    destruct (IH _ _ _ _ _ B O1 (Forall_inv_tail F) (Forall_inv_tail G) E) as [Q1 Q2].
    rewrite appended_cons, offered_cons, P1, Q1. auto.
Qed.
