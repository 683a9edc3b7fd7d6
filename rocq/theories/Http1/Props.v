(** Properties of the HTTP/1 body reader and response writer. *)
From Coq Require Import NArith ZArith List Bool Lia.
From Verif Require Import Http1.Model Http1.Spec Http1.Proofs Http1.Proofs2 Http1.Proofs3 Http1.Proofs4.
Import ListNotations.
Local Open Scope N_scope.

(** A body used in the examples: "5 hello 0" and what follows it. *)
Definition hello_wire : list N := [53;13;10;104;101;108;108;111;13;10;48;13;10;13;10].
Lemma hello_ok : chunk_wire [[104;101;108;108;111]] hello_wire.
Proof.
  apply (cw_chunk [53] [104;101;108;108;111] [] [48;13;10;13;10]);
    [constructor; unfold hexdigit; cbn; lia|discriminate|cbn; lia|reflexivity|].
  apply (cw_last [48]); [constructor; unfold hexdigit; lia|cbn; lia].
Qed.

(** *** C39: chunked bodies *)

(** However the bytes come in, the caller is handed the chunks' data in order;
    the end is told exactly after it, and nothing beyond the body is taken. *)
Theorem C39_decode : forall ds wire rest left s lens os r' s',
  chunk_wire ds wire -> left ++ unread s = wire ++ rest ->
  Forall (fun n => 0 < n) lens -> ~ In Closed (answers s) ->
  consumes (body_start true 0 left) s lens = (os, r', s') ->
  reads_body (concat ds) lens os
  /\ prefix (received os) (concat ds)
  /\ (In Done os -> received os = concat ds /\ buffered r' ++ unread s' = rest).
Proof.
  intros ds wire rest left s lens os r' s' W E P NC H.
  destruct (consumes_chunked rest lens (concat ds) _ s os r' s' P (start_cinv _ _ _ _ _ W E) NC H)
    as (A & B & _).
  destruct (reads_received _ _ _ A) as [C D].
  split; [exact A|]. split; [exact C|]. intros X. split; [exact (D X)|exact (B X)].
Qed.
Print Assumptions C39_decode.

Example C39_decode_ex :
  let s := mksock (skipn 3 hello_wire ++ [71;69;84]) [Ready 0; Again; Ready 2; Ready 7; Ready 9] in
  fst (fst (consumes (body_start true 0 (firstn 3 hello_wire)) s [4;4;4;4;4]))
    = [Wait; Got [104;101;108;108]; Got [111]; Done; Done]
  /\ firstn 3 hello_wire ++ unread s = hello_wire ++ [71;69;84]
  /\ ~ In Closed (answers s).
Proof.
  cbv zeta. split; [vm_compute; reflexivity|]. split; [reflexivity|].
  intros [H|[H|[H|[H|[H|[]]]]]]; discriminate.
Qed.

(** When the bytes do come, the whole body is handed over and the end told. *)
Theorem C39_complete : forall ds wire rest left s lens os r' s',
  chunk_wire ds wire -> left ++ unread s = wire ++ rest ->
  Forall (fun n => 0 < n) lens -> ~ In Closed (answers s) -> ~ In Again (answers s) ->
  (length (unread s) <= length (answers s))%nat -> (length (concat ds) < length lens)%nat ->
  consumes (body_start true 0 left) s lens = (os, r', s') ->
  In Done os /\ received os = concat ds /\ ~ In Wait os.
Proof.
  intros ds wire rest left s lens os r' s' W E P NC NA L1 L2 H.
  destruct (consumes_chunked rest lens (concat ds) _ s os r' s' P (start_cinv _ _ _ _ _ W E) NC H)
    as (A & B & C).
  pose proof (C NA L1) as NW. pose proof (reads_complete _ _ _ A NW L2) as D.
  destruct (reads_received _ _ _ A) as [_ R]. split; [exact D|]. split; [exact (R D)|exact NW].
Qed.
Print Assumptions C39_complete.

Example C39_complete_ex :
  let s := mksock hello_wire (repeat (Ready 0) 15) in
  fst (fst (consumes (body_start true 0 []) s [2;2;2;2;2;2]))
    = [Got [104;101]; Got [108;108]; Got [111]; Done; Done; Done].
Proof. vm_compute. reflexivity. Qed.

(** *** C40: the response *)

(** Whatever the socket does, no assertion fails and what was sent is a prefix
    of the headers followed by the body appended so far (in chunks or as it
    is); the count of written bytes is right. *)
Theorem C40_order : forall hdr os chunk close trigger, Forall op_ok os ->
  exists bs r, steps hdr os (fresh chunk close trigger) = OK (bs, r)
    /\ bytes_written r = N.of_nat (length (sent r))
    /\ (started r = false -> sent r = [])
    /\ (started r = true ->
        exists ds wire, response_wire chunk (closed r) hdr ds wire
          /\ prefix (sent r) wire /\ prefix (concat ds) (appended os bs)
          /\ (closed r = true -> concat ds = appended os bs)).
Proof.
  intros hdr os chunk close trigger F.
  destruct (steps_ok hdr os [] [] _ (fresh_inv hdr chunk close trigger) F) as (bs & r & A & I & E).
  exists bs, r. split; [exact A|]. split; [destruct I as (_ & _ & B & _); exact B|].
  split; [exact (inv_unstarted _ _ _ _ I)|]. intros ST.
  destruct (inv_wire _ _ _ _ I ST) as (ds & wire & X1 & X2 & X3 & X4 & _).
  change (opt_chunked (fresh chunk close trigger)) with chunk in E. rewrite E in X1.
  exists ds, wire. auto.
Qed.
Print Assumptions C40_order.

Example C40_order_ex :
  let os := [(Append [1;2;3], true, []); (Flush false, true, [Took 2; Full]);
             (Append [4], true, []); (Drive, true, [Took 100; Took 4; Full]);
             (Flush true, true, [])] in
  match steps [[72;73];[13;10]] os (fresh true false 0) with
  | OK (bs, r) => bs = [true; true; true; true; true]
      /\ sent r = [72;73;13;10; 51;13;10;1] /\ closed r = true /\ complete r = false
  | Crash => False
  end.
Proof. vm_compute. auto. Qed.

(** A response that is complete without an error was closed and all of it was
    sent. *)
Theorem C40_complete : forall hdr os chunk close trigger bs r, Forall op_ok os ->
  steps hdr os (fresh chunk close trigger) = OK (bs, r) ->
  complete r = true -> in_error r = false ->
  closed r = true
  /\ exists ds wire, response_wire chunk true hdr ds wire
       /\ concat ds = appended os bs /\ sent r = wire.
Proof.
  intros hdr os chunk close trigger bs r F H CM ER.
  destruct (steps_ok hdr os [] [] _ (fresh_inv hdr chunk close trigger) F) as (bs' & r' & A & I & E).
  rewrite A in H. injection H as -> ->.
  destruct (inv_complete _ _ _ _ I CM ER) as (CL & ST & L & R). split; [exact CL|].
  destruct (inv_wire _ _ _ _ I ST) as (ds & wire & X1 & X2 & X3 & X4 & X5).
  change (opt_chunked (fresh chunk close trigger)) with chunk in E. rewrite E, CL in X1.
  exists ds, wire. split; [exact X1|]. split; [exact (X4 CL)|exact (X5 L R)].
Qed.
Print Assumptions C40_complete.

Example C40_complete_ex :
  let os := [(Append [1;2;3], true, []); (Flush true, true, [Took 2; Full]);
             (Drive, true, [Took 1; Took 100; Took 100; Took 100; Took 100])] in
  match steps [[72;73];[13;10]] os (fresh true false 0) with
  | OK (bs, r) => complete r = true /\ in_error r = false
      /\ sent r = [72;73;13;10; 51;13;10;1;2;3;13;10; 48;13;10;13;10]
  | Crash => False
  end.
Proof. vm_compute. auto. Qed.

(** The chunks sent are a chunked body in the sense of C39, so the reader of
    C39 reads them back. *)
Theorem C40_readable : forall hdr ds wire, response_wire true true hdr ds wire ->
  exists w, wire = concat hdr ++ w /\ chunk_wire ds w.
Proof.
  intros hdr ds wire H. destruct (wire_chunked _ _ _ H) as (w & A & B). exists w. auto.
Qed.
Print Assumptions C40_readable.

Example C40_readable_ex : response_wire true true [[72];[13]] [[104;101;108;108;111]] ([72;13] ++ hello_wire).
Proof.
  exists [53;13;10;104;101;108;108;111;13;10]. split; [|reflexivity].
  apply (cs_chunk [53] [104;101;108;108;111] [] []);
    [constructor; unfold hexdigit; cbn; lia|discriminate|cbn; lia|reflexivity|constructor].
Qed.

(** While the response is open and the socket works, a chunked response or one
    ended by closing the connection accepts every byte appended. *)
Theorem C40_accepts : forall hdr os chunk close trigger bs r, chunk || close = true ->
  Forall op_ok os -> Forall op_open os ->
  steps hdr os (fresh chunk close trigger) = OK (bs, r) -> appended os bs = offered os.
Proof.
  intros hdr os chunk close trigger bs r C F G H.
  apply (fun X => proj1 (steps_Open hdr os [] [] _ bs r (fresh_inv hdr chunk close trigger) X F G H)).
  split; [reflexivity|]. split; [reflexivity|]. cbn. rewrite orb_comm. exact C.
Qed.
Print Assumptions C40_accepts.

Example C40_accepts_ex :
  let os := [(Append [1;2;3], true, []); (Flush false, true, [Took 2; Full]);
             (AppendChain [4;5] 2, false, [])] in
  Forall op_ok os /\ Forall op_open os /\ offered os = [1;2;3;4;5].
Proof.
  cbv zeta. split; [repeat constructor; cbn; lia|]. split; [|reflexivity].
  repeat constructor; cbn; intuition discriminate.
Qed.

(** *** C78: a closed response is delivered *)
Theorem C78_delivered_partial : forall hdr os chunk close trigger bs r, Forall op_ok os ->
  steps hdr os (fresh chunk close trigger) = OK (bs, r) ->
  closed r = false -> in_error r = false -> max_write r <> 0%Z ->
  exists n : nat, forall ans, Forall takes ans -> (n <= length ans)%nat ->
  exists b r' ans', step hdr (Flush true) false ans r = OK (b, r', ans')
    /\ complete r' = true /\ in_error r' = false
    /\ exists ds wire, response_wire chunk true hdr ds wire
       /\ concat ds = appended os bs /\ sent r' = wire.
Proof.
  intros hdr os chunk close trigger bs r F H CL ER MW.
  destruct (steps_ok hdr os [] [] _ (fresh_inv hdr chunk close trigger) F) as (bs' & r' & A & I & E).
  pose proof (steps_conn hdr os [] [] _ bs' r' (fresh_inv hdr chunk close trigger) F A) as CN.
  rewrite A in H. injection H as -> ->.
  change (opt_chunked (fresh chunk close trigger)) with chunk in E.
  destruct (final_delivers hdr [] _ r I CL ER CN MW) as (n & D). rewrite E in D.
  exists n. intros ans T L. destruct (D ans T L) as (b & r2 & a2 & D1 & D2 & D3 & ds & wire & D4 & D5 & D6).
  exists b, r2, a2. split; [exact D1|]. split; [exact D2|]. split; [exact D3|]. exists ds, wire. auto.
Qed.
Print Assumptions C78_delivered_partial.

Example C78_delivered_partial_ex :
  match steps [[72;73]] [(Append [1;2;3], true, []); (Flush false, true, [Took 1; Full])] (fresh true false 0) with
  | OK (bs, r) =>
      closed r = false /\ in_error r = false /\ max_write r = 524288%Z
      /\ match step [[72;73]] (Flush true) false (repeat (Took 1) 20) r with
         | OK (_, r', _) => complete r' = true /\ length (sent r') = 15%nat
         | Crash => False
         end
  | Crash => False
  end.
Proof. vm_compute. auto. Qed.

(** With a write limit of 0, which mtev_http_session_set_max_write accepts,
    nothing is ever written: every round of _http_perform_write asks the socket
    for 0 bytes and goes round again. *)
Theorem C78_limit_refuted : exists hdr os bs r, Forall op_ok os
  /\ steps hdr os (fresh false false 0) = OK (bs, r)
  /\ closed r = false /\ in_error r = false
  /\ forall ans il b r' ans', step hdr (Flush true) il ans r = OK (b, r', ans') -> sent r' = [].
Proof.
  exists [[72;73]], [(Append [1], true, []); (MaxWrite 0, true, [])].
  eexists _, _. split; [repeat constructor|]. split; [vm_compute; reflexivity|].
  split; [reflexivity|]. split; [reflexivity|].
  intros ans il b r' ans' H. cbn [step] in H. rewrite flush_ready in H.
  cbn [closed] in H.
  match type of H with match ready ?h ?f ?r with _ => _ end = _ =>
    let x := eval vm_compute in (ready h f r) in
    change (ready h f r) with x in H end.
  cbv iota in H.
  match type of H with match perform_write _ _ ?R _ with _ => _ end = _ =>
    destruct (perform_write il ans R 0) as [[[rv r4] a4]|] eqn:P; [|discriminate];
    assert (W : WI R) by (repeat split; repeat constructor; cbn; try lia; intuition) end.
  injection H as <- <- <-. apply perform_zero in P; [exact P|exact W|reflexivity].
Qed.
Print Assumptions C78_limit_refuted.

(** *** C79: bodies with a content length *)
Theorem C79_decode : forall body rest left s lens os r' s',
  left ++ unread s = body ++ rest ->
  Forall (fun n => 0 < n) lens -> ~ In Closed (answers s) ->
  consumes (body_start false (Z.of_N (N.of_nat (length body))) left) s lens = (os, r', s') ->
  reads_body body lens os
  /\ prefix (received os) body
  /\ (In Done os -> received os = body /\ buffered r' ++ unread s' = rest).
Proof.
  intros body rest left s lens os r' s' E P NC H.
  destruct (consumes_plain rest lens body _ s os r' s' P (start_pinv _ _ _ _ E) NC H) as (A & B & _).
  destruct (reads_received _ _ _ A) as [C D].
  split; [exact A|]. split; [exact C|]. intros X. split; [exact (D X)|exact (B X)].
Qed.
Print Assumptions C79_decode.

Example C79_decode_ex :
  let s := mksock [3;4;5;71;69] [Ready 0; Again; Ready 9] in
  consumes (body_start false 5 [1;2]) s [4;4;4;4;4]
  = ([Got [1;2]; Got [3]; Wait; Got [4;5]; Done],
     mkreq (Some (mkb 2 [71;69] DEFAULT_BCHAINSIZE)) [] false false 5 5 true, mksock [] []).
Proof. vm_compute. reflexivity. Qed.

Theorem C79_complete : forall body rest left s lens os r' s',
  left ++ unread s = body ++ rest ->
  Forall (fun n => 0 < n) lens -> ~ In Closed (answers s) -> ~ In Again (answers s) ->
  (length (unread s) <= length (answers s))%nat -> (length body < length lens)%nat ->
  consumes (body_start false (Z.of_N (N.of_nat (length body))) left) s lens = (os, r', s') ->
  In Done os /\ received os = body /\ ~ In Wait os.
Proof.
  intros body rest left s lens os r' s' E P NC NA L1 L2 H.
  destruct (consumes_plain rest lens body _ s os r' s' P (start_pinv _ _ _ _ E) NC H) as (A & B & C).
  pose proof (C NA L1) as NW. pose proof (reads_complete _ _ _ A NW L2) as D.
  destruct (reads_received _ _ _ A) as [_ R]. split; [exact D|]. split; [exact (R D)|exact NW].
Qed.
Print Assumptions C79_complete.

Example C79_complete_ex :
  let s := mksock [3;4;5] (repeat (Ready 0) 3) in
  fst (fst (consumes (body_start false 5 [1;2]) s [9;9;9;9;9;9]))
  = [Got [1;2]; Got [3]; Got [4]; Got [5]; Done; Done].
Proof. vm_compute. reflexivity. Qed.

(** *** C80: bytes after a request *)

(** Bytes that came in together with the end of a request are thrown away when
    the next one starts: for every body and everything that follows it. *)
Theorem C80_lost : forall ds wire rest left s lens os r' s',
  chunk_wire ds wire -> left ++ unread s = wire ++ rest ->
  Forall (fun n => 0 < n) lens -> ~ In Closed (answers s) ->
  consumes (body_start true 0 left) s lens = (os, r', s') -> In Done os ->
  buffered r' ++ unread s' = rest
  /\ buffered (request_release r') ++ unread s' = skipn (length (buffered r')) rest.
Proof.
  intros ds wire rest left s lens os r' s' W E P NC H D.
  destruct (C39_decode ds wire rest left s lens os r' s' W E P NC H) as (_ & _ & X).
  destruct (X D) as [_ R]. split; [exact R|].
  rewrite <- R, skipn_app, skipn_all, Nat.sub_diag. reflexivity.
Qed.
Print Assumptions C80_lost.

Example C80_lost_ex :
  let s := mksock (hello_wire ++ [71;69;84;32;47]) [Ready 100] in
  match consumes (body_start true 0 []) s [10;10] with
  | (os, r, s') => In Done os /\ buffered r = [71;69;84;32;47] /\ unread s' = []
  end.
Proof. vm_compute. auto. Qed.

Theorem C80_pipelined_refuted : exists ds wire rest s lens os r' s',
  chunk_wire ds wire /\ unread s = wire ++ rest /\ Forall (fun n => 0 < n) lens
  /\ consumes (body_start true 0 []) s lens = (os, r', s') /\ In Done os /\ rest <> []
  /\ buffered (request_release r') ++ unread s' = [].
Proof.
  exists [[104;101;108;108;111]], hello_wire, [71;69;84;32;47], (mksock (hello_wire ++ [71;69;84;32;47]) [Ready 100]), [10;10].
  eexists _, _, _. split; [exact hello_ok|]. split; [reflexivity|]. split; [repeat constructor|].
  split; [vm_compute; reflexivity|]. split; [right; left; reflexivity|]. split; [discriminate|reflexivity].
Qed.
Print Assumptions C80_pipelined_refuted.

(** *** C81: what is accepted as a chunked body *)

(** Everything that is accepted has the lax form: size lines of any number of
    hexadecimal digits, none included, taken modulo 2^32, and any two bytes
    after the last one. *)
Theorem C81_accepted : forall left s lens os r' s',
  N.of_nat (length (left ++ unread s)) < 2 ^ 31 - 4 -> Forall (fun n => 0 < n) lens ->
  consumes (body_start true 0 left) s lens = (os, r', s') ->
  (forall o, In o os -> (exists x, o = Got x) \/ o = Wait \/ o = Done) -> In Done os ->
  exists ds w, left ++ unread s = w ++ buffered r' ++ unread s'
    /\ received os = concat ds /\ lax_wire ds w.
Proof.
  intros left s lens os r' s' L P H G D.
  assert (GD : Forall good os).
  { apply Forall_forall. intros o IN. destruct (G o IN) as [(x & ->)|[->| ->]]; exact I. }
  destruct (consumes_sound (left ++ unread s) lens [] _ s os r' s' L P (start_sinv left s) H GD)
    as ((_ & _ & _ & ds & w & A & B & C) & X).
  destruct (X D) as [Y Z]. rewrite Y in C. rewrite Z in B. cbn [app concat] in B. rewrite app_nil_r in B.
  exists ds, w. auto.
Qed.
Print Assumptions C81_accepted.

Example C81_accepted_ex :
  let s := mksock hello_wire [Ready 100] in
  match consumes (body_start true 0 []) s [10;10] with
  | (os, r, s') => os = [Got [104;101;108;108;111]; Done] /\ buffered r ++ unread s' = []
  end.
Proof. vm_compute. auto. Qed.

(** "CR LF x y" is an empty body; "100000001 CR LF a CR LF CR LF CR LF" is the
    body "a". *)
Theorem C81_strict_refuted :
  (exists s r s', unread s = [13;10;120;121]
     /\ consumes (body_start true 0 []) s [10] = ([Done], r, s')
     /\ ~ exists ds, chunk_wire ds (unread s))
  /\ (exists s r s', unread s = [49;48;48;48;48;48;48;48;49;13;10;97;13;10;13;10;13;10]
     /\ consumes (body_start true 0 []) s [10;10] = ([Got [97]; Done], r, s')).
Proof.
  split.
  - exists (mksock [13;10;120;121] [Ready 100]). eexists _, _. split; [reflexivity|].
    split; [vm_compute; reflexivity|]. cbn [unread]. intros (ds & H).
    assert (ND : forall z n, hexnum z n -> forall t u, z ++ u = 13 :: t -> False).
    { induction 1; intros t u Q.
      - cbn in Q. injection Q as -> _. unfold hexdigit in H0. lia.
      - rewrite <- app_assoc in Q. exact (IHhexnum _ _ Q). }
    inversion H as [z Z1 Z2 Z3 Z4|z d ds' w Z1 Z2 Z3 Z4 Z5 Z6 Z7]; exact (ND _ _ Z1 _ _ ltac:(eassumption)).
  - exists (mksock [49;48;48;48;48;48;48;48;49;13;10;97;13;10;13;10;13;10] [Ready 100]).
    eexists _, _. split; [reflexivity|]. vm_compute. reflexivity.
Qed.
Print Assumptions C81_strict_refuted.

(** *** C82: no input makes the chunk reader claim bytes beyond its buffer *)
Theorem C82_bounded : forall left s lens os r' s',
  N.of_nat (length (left ++ unread s)) < 2 ^ 31 - 4 ->
  consumes (body_start true 0 left) s lens = (os, r', s') -> ~ In Overrun os.
Proof.
  intros left s lens os r' s' L H.
  assert (B : BInv (2 ^ 31 - 4) (body_start true 0 left) s).
  { split; [reflexivity|]. split; [unfold body_start; destruct left; [exact I|apply N.le_refl]|].
    replace (buffered (body_start true 0 left)) with left; [exact L|]. destruct left; reflexivity. }
  exact (proj1 (consumes_bound (2 ^ 31 - 4) lens _ s os r' s' (N.le_refl _) B H)).
Qed.
Print Assumptions C82_bounded.

Example C82_bounded_ex :
  let s := mksock ([102;102;102;102;102;102;102;102;13;10] ++ [1;2;3;4]) [Ready 100] in
  fst (fst (consumes (body_start true 0 []) s [10])) = [Stale].
Proof. vm_compute. reflexivity. Qed.

(** *** C83: received bytes are handed over *)

(** With a content length: "try again" is answered only when no byte of the
    body is held. *)
Theorem C83_plain_partial : forall body rest left s lens os r s1 n r' s',
  left ++ unread s = body ++ rest ->
  Forall (fun n => 0 < n) lens -> ~ In Closed (answers s) -> 0 < n ->
  consumes (body_start false (Z.of_N (N.of_nat (length body))) left) s lens = (os, r, s1) ->
  consume r s1 n = (Wait, r', s') -> user_data r = [] /\ buffered r = [].
Proof.
  intros body rest left s lens os r s1 n r' s' E P NC N0 H W.
  destruct (consumes_pinv rest lens body _ s os r s1 P (start_pinv _ _ _ _ E) NC H) as (NC1 & b & I).
  destruct (consume_plain _ _ _ _ _ _ _ _ N0 I NC1 W) as [_ [(x & y & Q & _)|[(_ & _ & _ & B & U)|(Q & _)]]].
  - discriminate.
  - auto.
  - discriminate.
Qed.
Print Assumptions C83_plain_partial.

Example C83_plain_partial_ex :
  let s := mksock [3] [Ready 0; Again] in
  fst (fst (consumes (body_start false 5 [1;2]) s [1;1;1;1])) = [Got [1]; Got [2]; Got [3]; Wait].
Proof. vm_compute. reflexivity. Qed.

(** With chunks: "try again" although three bytes of the body are decoded and
    waiting. *)
Theorem C83_withheld_refuted : exists ds wire s r s1 r' s',
  chunk_wire ds wire /\ prefix (unread s) wire
  /\ consumes (body_start true 0 []) s [2] = ([Got [104;101]], r, s1)
  /\ user_data r = [[108;108;111]]
  /\ consume r s1 10 = (Wait, r', s').
Proof.
  exists [[104;101;108;108;111]], hello_wire, (mksock (firstn 10 hello_wire) [Ready 100; Again]).
  eexists _, _, _, _. split; [exact hello_ok|].
  split; [exists (skipn 10 hello_wire); symmetry; apply firstn_skipn|].
  split; [vm_compute; reflexivity|]. split; [reflexivity|]. vm_compute. reflexivity.
Qed.
Print Assumptions C83_withheld_refuted.

(** *** C84: the interim response to Expect: 100-continue *)

(** If all of it could be written at once, the response follows it. *)
Theorem C84_continue_partial : forall hdr il ans os chunk close trigger r0 a,
  send_continue il ans (fresh chunk close trigger) = OK (r0, a) -> leader r0 = [] ->
  Forall op_ok os ->
  exists bs r, steps hdr os r0 = OK (bs, r)
    /\ (started r = true ->
        exists ds wire, response_wire chunk (closed r) hdr ds wire
          /\ prefix (sent r) (continue_text ++ wire) /\ prefix (concat ds) (appended os bs)).
Proof.
  intros hdr il ans os chunk close trigger r0 a H L F.
  destruct (continue_ok il ans chunk close trigger) as (r1 & a1 & A & _ & OC & B & _).
  rewrite A in H. injection H as -> ->. destruct (B L) as [_ I0].
  destruct (steps_ok hdr os continue_text [] r0 (I0 hdr) F) as (bs & r & S1 & I & E).
  exists bs, r. split; [exact S1|]. intros ST.
  destruct (inv_wire _ _ _ _ I ST) as (ds & wire & X1 & X2 & X3 & _).
  rewrite E, OC in X1. exists ds, wire. auto.
Qed.
Print Assumptions C84_continue_partial.

Example C84_continue_partial_ex :
  match send_continue true [Took 10; Took 100] (fresh true false 0) with
  | OK (r0, _) => leader r0 = [] /\ sent r0 = continue_text
  | Crash => False
  end.
Proof. vm_compute. auto. Qed.

(** If not, the assertion that the leader is empty fails as soon as the
    application flushes: the process aborts. *)
Theorem C84_pending_crash : forall il ans chunk close trigger r0 a,
  send_continue il ans (fresh chunk close trigger) = OK (r0, a) -> leader r0 <> [] ->
  forall hdr f il' ans2, response_flush il' hdr f ans2 r0 = Crash.
Proof.
  intros il ans chunk close trigger r0 a H L.
  destruct (continue_ok il ans chunk close trigger) as (r1 & a1 & A & _ & _ & _ & B).
  rewrite A in H. injection H as -> ->. exact (B L).
Qed.
Print Assumptions C84_pending_crash.

Example C84_pending_crash_ex :
  match send_continue true [Took 10; Full] (fresh true false 0) with
  | OK (r0, _) => leader r0 <> []
  | Crash => False
  end.
Proof. vm_compute. discriminate. Qed.

Theorem C84_survives_refuted : exists os,
  steps [[72]] os (fresh true false 0) = Crash
  /\ os = [(Continue, true, [Full]); (Drive, true, [Full]); (Append [1], true, []); (Flush true, true, [])].
Proof. eexists. split; [|reflexivity]. vm_compute. reflexivity. Qed.
Print Assumptions C84_survives_refuted.
