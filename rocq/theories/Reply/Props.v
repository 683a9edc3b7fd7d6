(** C127-C133: the head of HTTP/1 responses. *)
From Coq Require Import NArith Arith List Bool Ascii String Permutation Sorted Lia.
From Verif.Reply Require Import Model Spec Proofs Proofs2 Proofs3 Proofs4 Proofs5.
Import ListNotations.
Local Open Scope nat_scope.

(** A client of today, and an old one. *)
Definition q11 : request := mkreq P11 (mkopt true true true false false) [].
Definition q10 : request := mkreq P10 (mkopt false true true false false) [].
Definition page : list op :=
  [Status 200 (text "OK"); Header (text "X-B") (text "2"); Header (text "x-a") (text "1"); Header (text "X-B") (text "3")].

(** C127: the client reads the status line and the fields that were set, and what
    follows the head is the body. *)
Definition C127_full : Prop := forall B order q ops rest, sorts order ->
  exists r' out line fields, start B order q (run q fresh ops) = Done (r', out) /\
    status_line (protocol r') (status r') (reason r') line /\ Permutation fields (headers r') /\
    forall ls rest', reads (List.concat out ++ rest) ls rest' <-> ls = line :: map field_line fields /\ rest' = rest.

Theorem C127_reads_partial : forall B order q ops r' out rest, sorts order -> Forall clean ops ->
  start B order q (run q fresh ops) = Done (r', out) -> line_len (run q fresh ops) <> B ->
  exists line fields, status_line (protocol r') (status r') (reason r') line /\
    Permutation fields (headers r') /\
    forall ls rest', reads (List.concat out ++ rest) ls rest' <-> ls = line :: map field_line fields /\ rest' = rest.
Proof. exact sent_reads. Qed.
Print Assumptions C127_reads_partial.
Example C127_reads_partial_ex :
  sorts isort /\ Forall clean page /\ line_len (run q11 fresh page) = 17 /\
  match start 40 isort q11 (run q11 fresh page) with
  | Done (_, out) => out = [text "HTTP/1.1 200 OK" ++ crlf ++ text "Transfer-Encoding: "; text "chunked" ++ crlf ++ text "x-a: 1" ++ crlf ++ text "X-B: 3" ++ crlf ++ crlf]
  | _ => False
  end.
Proof.
  split; [exact isort_sorts|]. split; [|split; vm_compute; reflexivity].
  repeat (apply Forall_cons; [cbn -[text]; try split; apply one_line_decP; reflexivity|]). constructor.
Qed.

(** Without any condition on the texts: the bytes, over any sizes of blocks. *)
Theorem C127_text_partial : forall B order q ops r' out, sorts order ->
  start B order q (run q fresh ops) = Done (r', out) -> line_len (run q fresh ops) <> B ->
  exists line fields, status_line (protocol r') (status r') (reason r') line /\
    Permutation fields (headers r') /\ Sorted name_le (map fst fields) /\ List.concat out = head_text line fields.
Proof. exact sent. Qed.
Print Assumptions C127_text_partial.
Example C127_text_partial_ex : line_len (run q11 fresh page) <> 17 + 1 /\
  match start 18 isort q11 (run q11 fresh page), start 1000 isort q11 (run q11 fresh page) with
  | Done (_, o1), Done (_, o2) => List.concat o1 = List.concat o2 /\ List.length o1 = 4 /\ List.length o2 = 1
  | _, _ => False
  end.
Proof. split; [vm_compute; discriminate|vm_compute; repeat split; reflexivity]. Qed.

(** A field is read back as name and value. *)
Theorem C127_fields : forall f g, ~ In 58%N (fst f) -> ~ In 58%N (fst g) -> field_line f = field_line g -> f = g.
Proof. exact field_line_inj. Qed.
Print Assumptions C127_fields.
Example C127_fields_ex : ~ In 58%N (text "Host") /\ field_line (text "Host", text "a:b") = text "Host: a:b".
Proof. split; [vm_compute; intuition discriminate|reflexivity]. Qed.

(** The head is written exactly when the status line fits the first block ... *)
Theorem C127_overrun_refuted : forall B order q r,
  (line_len r <= B -> exists r' out, start B order q r = Done (r', out)) /\
  (B < line_len r -> start B order q r = Bad).
Proof. exact start_cases. Qed.
Print Assumptions C127_overrun_refuted.
Example C127_overrun_refuted_ex :
  line_len (run q11 fresh [Status 200 (text "OK")]) = 17 /\ start 16 isort q11 (run q11 fresh [Status 200 (text "OK")]) = Bad.
Proof. split; vm_compute; reflexivity. Qed.
(** ... and when it just fits, its line feed is lost. *)
Theorem C127_nul_refuted : forall order q r r' out, start (line_len r) order q r = Done (r', out) ->
  (status r < 1000)%N ->
  exists line rest, status_line (protocol r) (status r) (reason r) line /\ List.concat out = line ++ [13; 0]%N ++ rest.
Proof. exact start_nul. Qed.
Print Assumptions C127_nul_refuted.
Example C127_nul_refuted_ex :
  match start 17 isort q11 (run q11 fresh [Status 200 (text "OK")]) with
  | Done (_, out) => out = [text "HTTP/1.1 200 OK" ++ [13; 0]%N; text "Transfer-Encoding"; text ": chunked" ++ crlf ++ crlf]
  | _ => False
  end.
Proof. vm_compute. reflexivity. Qed.

(** A value with line ends becomes fields of its own, and can end the head. *)
Definition split_response : list op :=
  [Status 200 (text "OK"); Header (text "Location") (text "/" ++ crlf ++ text "Set-Cookie: a=b" ++ crlf ++ crlf ++ text "<p>")].
Theorem C127_injection_refuted :
  match start 1000 isort q11 (run q11 fresh split_response) with
  | Done (r', out) => map fst (headers r') = [text "Location"; text "Transfer-Encoding"] /\
      exists rest, reads (List.concat out) [text "HTTP/1.1 200 OK"; text "Location: /"; text "Set-Cookie: a=b"] rest
  | _ => False
  end /\ ~ C127_full.
Proof.
  split.
  - vm_compute start. split; [reflexivity|]. eexists.
    apply (reads_line (text "HTTP/1.1 200 OK")); [discriminate|apply one_line_decP; reflexivity|].
    apply (reads_line (text "Location: /")); [discriminate|apply one_line_decP; reflexivity|].
    apply (reads_line (text "Set-Cookie: a=b")); [discriminate|apply one_line_decP; reflexivity|].
    apply reads_end.
  - intro F. destruct (F 16 isort q11 [Status 200 (text "OK")] [] isort_sorts) as [r' [out [line [fields [E _]]]]].
    vm_compute in E. discriminate E.
Qed.
Print Assumptions C127_injection_refuted.

(** C128: the client can tell where the body ends. *)
Theorem C128_delimited : forall B order q ops r' out f, closing (ropts q) = true -> Forall plain ops ->
  start B order q (run q fresh ops) = Done (r', out) -> Permutation f (headers r') -> delimited r' f.
Proof. exact sent_delimited. Qed.
Print Assumptions C128_delimited.
Ltac plain1 := apply Forall_cons; [repeat split; cbn -[text]; try exact Logic.I; let X := fresh in intro X; vm_compute in X; discriminate X|].
Example C128_delimited_ex : closing (ropts q11) = true /\ Forall plain page /\
  match start 1000 isort q10 (run q10 fresh page) with
  | Done (r', out) => out = [text "HTTP/1.0 200 OK" ++ crlf ++ text "Connection: close" ++ crlf ++ text "x-a: 1" ++ crlf ++ text "X-B: 3" ++ crlf ++ crlf] /\ needs_close r' = true
  | _ => False
  end.
Proof.
  split; [reflexivity|]. split; [|vm_compute; split; reflexivity].
  repeat plain1. constructor.
Qed.
(** An old client never gets chunks or an encoding. *)
Theorem C128_old_clients : forall B order q ops r' out f, Forall plain ops -> rprotocol q <> P11 ->
  start B order q (run q fresh ops) = Done (r', out) -> Permutation f (headers r') ->
  values (text "Transfer-Encoding") f = [] /\ values (text "Content-Encoding") f = [] /\ ending r' = [] /\ body_coding r' = Plain.
Proof. exact sent_old. Qed.
Print Assumptions C128_old_clients.
Example C128_old_clients_ex : rprotocol q10 <> P11 /\
  match start 1000 isort q10 (run q10 fresh (page ++ [Option oCHUNKED; Option oGZIP])) with
  | Done (r', _) => map fst (headers r') = [text "X-B"; text "x-a"; text "Connection"]
  | _ => False
  end.
Proof. split; [discriminate|vm_compute; reflexivity]. Qed.
(** The chunks are announced exactly when they are sent, and the close likewise. *)
Theorem C128_announced : forall B order q ops r' out f, Forall plain ops ->
  start B order q (run q fresh ops) = Done (r', out) -> Permutation f (headers r') ->
  values (text "Transfer-Encoding") f = (if chunked (opts r') then [text "chunked"] else []) /\
  values (text "Connection") f = (if closing (opts r') then [text "close"] else []) /\
  ending r' = (if chunked (opts r') then text "0" ++ crlf ++ crlf else []).
Proof.
  intros B order q ops r' out f P E Pf. destruct (sent_owned B order q ops r' out f P E Pf) as [T [C _]].
  unfold te_of, cn_of in *. split; [|split].
  - change (text "Transfer-Encoding") with TE; rewrite T; now destruct (chunked (opts r')).
  - change (text "Connection") with CN. rewrite C. now destruct (closing (opts r')).
  - unfold ending. now destruct (chunked (opts r')).
Qed.
Print Assumptions C128_announced.
Example C128_announced_ex :
  match start 1000 isort q11 (run q11 fresh (page ++ [Option oCLOSE])) with
  | Done (r', _) => map fst (headers r') = [text "X-B"; text "x-a"; text "Connection"] /\ chunked (opts r') = false /\ ending r' = []
  | _ => False
  end.
Proof. vm_compute. repeat split; reflexivity. Qed.

(** mtev_http_response_standard: chunks for those who take them, a close else. *)
Theorem C128_standard : forall q code name type, (100 <= code)%N -> (code <= 999)%N -> closing (ropts q) = true ->
  let r := standard q fresh code name type in
  protocol r = rprotocol q /\ status r = code /\ reason r = Some name /\
  hget (headers r) (text "Content-Type") = Some type /\
  (chunked (opts r) = true <-> rprotocol q = P11 /\ chunked (ropts q) = true) /\
  closing (opts r) = negb (chunked (opts r)).
Proof. exact standard_ok. Qed.
Print Assumptions C128_standard.
Example C128_standard_ex :
  opts (standard q11 fresh 200 (text "OK") (text "text/plain")) = oCHUNKED /\
  opts (standard q10 fresh 500 (text "ERROR") (text "text/plain")) = oCLOSE.
Proof. split; vm_compute; reflexivity. Qed.

(** C129: a response does not carry both a length and chunks (RFC 7230, 3.3.2). *)
Definition C129_full : Prop := forall B order q ops r' out, Forall plain ops ->
  start B order q (run q fresh ops) = Done (r', out) ->
  ~ (values (text "Content-Length") (headers r') <> [] /\ values (text "Transfer-Encoding") (headers r') <> []).
(** It does when the handler sets a length and asks for chunks. *)
Theorem C129_both_refuted : ~ C129_full.
Proof.
  intro F.
  destruct (start 1000 isort q11 (run q11 fresh [Status 200 (text "OK"); Option oCHUNKED; Header (text "Content-Length") (text "5")])) as [[r' out]| |] eqn:E.
  - refine (F 1000 isort q11 _ r' out _ E _); [repeat plain1; constructor|].
    vm_compute in E. injection E as <- _. split; vm_compute; discriminate.
  - vm_compute in E. discriminate.
  - vm_compute in E. discriminate.
Qed.
Print Assumptions C129_both_refuted.
(** It does not when no chunks are asked for. *)
Definition asks_chunks (o : op) : Prop := match o with Option o => chunked o = true | _ => False end.
Theorem C129_one_partial : forall B order q ops r' out, Forall plain ops -> Forall (fun o => ~ asks_chunks o) ops ->
  start B order q (run q fresh ops) = Done (r', out) ->
  ~ (values (text "Content-Length") (headers r') <> [] /\ values (text "Transfer-Encoding") (headers r') <> []).
Proof. exact one_framing. Qed.
Print Assumptions C129_one_partial.
Example C129_one_partial_ex :
  match start 1000 isort q11 (run q11 fresh [Status 200 (text "OK"); Header (text "content-length") (text "5"); Option oGZIP]) with
  | Done (r', _) => map fst (headers r') = [text "content-length"; text "Vary"; text "Content-Encoding"]
  | _ => False
  end.
Proof. vm_compute. reflexivity. Qed.

(** C130: the encoding that is announced is the one applied. *)
Theorem C130_encoding : forall B order q ops r' out f, Forall plain ops ->
  start B order q (run q fresh ops) = Done (r', out) -> Permutation f (headers r') ->
  values (text "Content-Encoding") f = coding_name (body_coding r') /\
  (body_coding r' <> Plain <-> values (text "Vary") f = [text "Accept-Encoding"]).
Proof.
  intros B order q ops r' out f P E Pf. destruct (sent_owned B order q ops r' out f P E Pf) as [_ [_ [C V]]].
  split; [rewrite <- ce_coding; exact C|].
  change (text "Vary") with VA. rewrite V. unfold va_of, body_coding, encodings.
  destruct (gzip (opts r')), (deflate (opts r')), (lz4f (opts r')); cbn; split; intro; congruence.
Qed.
Print Assumptions C130_encoding.
Example C130_encoding_ex :
  match start 1000 isort q11 (run q11 fresh (page ++ [Option oCHUNKED])) with
  | Done (r', out) => body_coding r' = Gzip /\ out = [text "HTTP/1.1 200 OK" ++ crlf ++ text "Content-Encoding: gzip" ++ crlf ++ text "Transfer-Encoding: chunked" ++ crlf
      ++ text "Vary: Accept-Encoding" ++ crlf ++ text "x-a: 1" ++ crlf ++ text "X-B: 3" ++ crlf ++ crlf]
  | _ => False
  end.
Proof. vm_compute. split; reflexivity. Qed.

(** C131: the client accepts the encoding it gets. *)
Definition C131_full : Prop := forall B order q ops r' out,
  start B order q (run q fresh ops) = Done (r', out) -> takes q (body_coding r').
Theorem C131_accepted_partial : forall B order q ops r' out, Forall single ops ->
  start B order q (run q fresh ops) = Done (r', out) -> takes q (body_coding r') /\ (ending r' <> [] -> chunked (ropts q) = true).
Proof. exact sent_accepted. Qed.
Print Assumptions C131_accepted_partial.
Example C131_accepted_partial_ex : Forall single [Status 200 (text "OK"); Option oCHUNKED; Option oDEFLATE] /\
  match start 1000 isort q11 (run q11 fresh [Status 200 (text "OK"); Option oCHUNKED; Option oDEFLATE]) with
  | Done (r', _) => body_coding r' = Gzip
  | _ => False
  end.
Proof. split; [|vm_compute; reflexivity]. repeat constructor; cbn; tauto. Qed.
(** Options asked for together are granted if the client takes one of them. *)
Definition qplain : request := mkreq P11 (mkopt true true false false false) [].
Theorem C131_together_refuted :
  fst (option_set qplain (run qplain fresh [Status 200 (text "OK")]) (oor oCHUNKED oGZIP)) = true /\ ~ C131_full.
Proof.
  split; [vm_compute; reflexivity|]. intro F.
  destruct (start 1000 isort qplain (run qplain fresh [Status 200 (text "OK"); Option (oor oCHUNKED oGZIP)])) as [[r' out]| |] eqn:E.
  - apply F in E as X. vm_compute in E. injection E as <- _. vm_compute in X. discriminate X.
  - vm_compute in E. discriminate.
  - vm_compute in E. discriminate.
Qed.
Print Assumptions C131_together_refuted.

(** C132: once output has started nothing changes. *)
Theorem C132_frozen : forall B order q r r' out, start B order q r = Done (r', out) ->
  (forall o, call q r' o = (false, r')) /\ forall ops, run q r' ops = r'.
Proof.
  intros B order q r r' out E. apply sent_started in E. split; intros; [now apply frozen_call|now apply frozen_run].
Qed.
Print Assumptions C132_frozen.
Example C132_frozen_ex :
  match start 1000 isort q11 (run q11 fresh page) with
  | Done (r', _) => call q11 r' (Header (text "a") (text "b")) = (false, r') /\ call q11 r' (Status 500 []) = (false, r')
  | _ => False
  end.
Proof. vm_compute. split; reflexivity. Qed.
(** The status that is sent is the last one that was taken. *)
Theorem C132_last_status : forall B order q ops c w ops' r' out, (100 <= c)%N -> (c <= 999)%N -> Forall not_status ops' ->
  start B order q (run q fresh (ops ++ Status c w :: ops')) = Done (r', out) ->
  protocol r' = rprotocol q /\ status r' = c /\ reason r' = Some w.
Proof. exact last_status. Qed.
Print Assumptions C132_last_status.
Example C132_last_status_ex :
  match start 1000 isort q10 (run q10 fresh ([Status 200 (text "OK")] ++ Status 404 (text "no") :: [Header (text "a") []])) with
  | Done (r', out) => protocol r' = P10 /\ status r' = 404%N /\ firstn 15 (List.concat out) = text "HTTP/1.0 404 no"
  | _ => False
  end.
Proof. vm_compute. repeat split; reflexivity. Qed.
(** A status outside of 100 to 999 is refused, and the old one stays. *)
Theorem C132_refused_status : forall q r c w, started r = false ->
  (fst (call q r (Status c w)) = true <-> (100 <= c /\ c <= 999)%N) /\
  (~ (100 <= c /\ c <= 999)%N -> status (snd (call q r (Status c w))) = status r /\ reason (snd (call q r (Status c w))) = reason r).
Proof.
  intros q r c w H. cbn. unfold status_set. rewrite H. cbv zeta.
  destruct (N.ltb_spec c 100); destruct (N.ltb_spec 999 c); cbn; split; try split; try reflexivity; try discriminate; lia.
Qed.
Print Assumptions C132_refused_status.
Example C132_refused_status_ex : call q11 fresh (Status 99 []) = (false, mkresp false P11 0 None [] o0 false).
Proof. reflexivity. Qed.
(** A header that is sent has the last value it was given ... *)
Theorem C132_last_value : forall B order q ops k v ops' r' out, ~ In k own_names -> Forall (not_header k) ops' ->
  start B order q (run q fresh (ops ++ Header k v :: ops')) = Done (r', out) ->
  In (k, v) (headers r') /\ forall v', In (k, v') (headers r') -> v' = v.
Proof. exact last_value. Qed.
Print Assumptions C132_last_value.
Example C132_last_value_ex : ~ In (text "X-B") own_names /\
  match start 1000 isort q11 (run q11 fresh page) with
  | Done (r', _) => headers r' = [(text "X-B", text "3"); (text "x-a", text "1"); (text "Transfer-Encoding", text "chunked")]
  | _ => False
  end.
Proof. split; [vm_compute; intuition discriminate|vm_compute; reflexivity]. Qed.
(** ... and no header is sent that was not given, but those of the server. *)
Theorem C132_nothing_else : forall B order q ops r' out k v, start B order q (run q fresh ops) = Done (r', out) ->
  In (k, v) (headers r') -> In k own_names \/ In (Header k v) ops.
Proof. exact nothing_else. Qed.
Print Assumptions C132_nothing_else.
Example C132_nothing_else_ex : In (Header (text "X-B") (text "3")) page /\ In (text "Transfer-Encoding") own_names.
Proof. split; cbn; tauto. Qed.

(** C133: a websocket is opened for those that ask for one, with the answer of
    RFC 6455 and no fields of a body. *)
Definition C133_full : Prop := forall B order sha1 q r r' out, digest20 sha1 -> sorts order ->
  handshake sha1 q fresh = Some r -> start B order q r = Done (r', out) -> 34 < B ->
  asks_websocket q /\ values (text "Transfer-Encoding") (headers r') = [] /\ values (text "Connection") (headers r') = [text "Upgrade"].
(** Who gets one. *)
Theorem C133_who_partial : forall sha1 q r, handshake sha1 q r <> None <->
  hget (rheaders q) (text "upgrade") <> None /\ hget (rheaders q) (text "connection") <> None /\
  exists key, hget (rheaders q) (text "sec-websocket-key") = Some key /\ List.length key = 24.
Proof. exact handshake_some. Qed.
Print Assumptions C133_who_partial.
Definition sha0 : bytes -> bytes := fun _ => repeat 7%N 20.
Definition qws (p : proto) (u : bytes) : request := mkreq p (mkopt match p with P11 => true | _ => false end true true false false)
  [(text "upgrade", u); (text "connection", text "keep-alive"); (text "sec-websocket-key", text "dGhlIHNhbXBsZSBub25jZQ=="); (text "sec-websocket-protocol", text "chat, superchat")].
Example C133_who_partial_ex : handshake sha0 (qws P11 (text "websocket")) fresh <> None /\ handshake sha0 q11 fresh = None.
Proof. split; [vm_compute; discriminate|reflexivity]. Qed.
(** The answer; there is a field too many for a client of today, and an old one is
    told that the connection closes. *)
Theorem C133_answer_partial : forall B order sha1 q key r r' out, digest20 sha1 -> sorts order ->
  hget (rheaders q) (text "sec-websocket-key") = Some key -> handshake sha1 q fresh = Some r ->
  start B order q r = Done (r', out) -> 34 <> B ->
  exists line fields, status_line (rprotocol q) 101 (Some (text "Switching Protocols")) line /\
    List.concat out = head_text line fields /\ Permutation fields (headers r') /\
    (rprotocol q = P11 -> chunked (ropts q) = true ->
       headers r' = upgrade_fields (text "Upgrade") (rfc_accept sha1 key) q ++ [(text "Transfer-Encoding", text "chunked")]) /\
    (rprotocol q <> P11 -> closing (ropts q) = true ->
       headers r' = upgrade_fields (text "close") (rfc_accept sha1 key) q /\ needs_close r' = true).
Proof. exact hs_sent. Qed.
Print Assumptions C133_answer_partial.
Example C133_answer_partial_ex : digest20 sha0 /\
  match handshake sha0 (qws P11 (text "h2c")) fresh with
  | Some r => match start 1000 isort (qws P11 (text "h2c")) r with
              | Done (_, out) => List.concat out = text "HTTP/1.1 101 Switching Protocols" ++ crlf ++ text "Connection: Upgrade" ++ crlf
                  ++ text "Sec-WebSocket-Accept: BwcHBwcHBwcHBwcHBwcHBwcHBwc=" ++ crlf ++ text "Sec-WebSocket-Protocol: chat, superchat" ++ crlf
                  ++ text "Transfer-Encoding: chunked" ++ crlf ++ text "Upgrade: websocket" ++ crlf ++ crlf
              | _ => False
              end
  | None => False
  end.
Proof.
  split; [|vm_compute; reflexivity]. intro m. split; [reflexivity|].
  unfold sha0. apply Forall_forall. intros x I. apply repeat_spec in I. now subst.
Qed.
(** A request to change to another protocol, without a version, is answered with a
    websocket; the answer announces chunks. *)
Theorem C133_refuted : ~ C133_full /\
  match handshake sha0 (qws P11 (text "h2c")) fresh with Some _ => ~ asks_websocket (qws P11 (text "h2c")) | None => False end /\
  forall B order sha1 q r r' out, digest20 sha1 -> sorts order -> handshake sha1 q fresh = Some r ->
    start B order q r = Done (r', out) -> 34 < B -> rprotocol q = P11 -> chunked (ropts q) = true ->
    In (text "Transfer-Encoding", text "chunked") (headers r').
Proof.
  assert (N : ~ asks_websocket (qws P11 (text "h2c"))).
  { intros [[u [H1 H2]] _]. vm_compute in H1. injection H1 as <-. vm_compute in H2. discriminate H2. }
  split; [|split; [exact N|]].
  - intro F. destruct (handshake sha0 (qws P11 (text "h2c")) fresh) as [r|] eqn:E; [|vm_compute in E; discriminate].
    destruct (start 1000 isort (qws P11 (text "h2c")) r) as [[r' out]| |] eqn:E2.
    + destruct (F 1000 isort sha0 _ r r' out (proj1 C133_answer_partial_ex) isort_sorts E E2) as [X _]; [lia|contradiction].
    + vm_compute in E. injection E as <-. vm_compute in E2. discriminate.
    + vm_compute in E. injection E as <-. vm_compute in E2. discriminate.
  - intros B order sha1 q r r' out D S H E L P C.
    destruct (proj1 (handshake_some sha1 q fresh)) as [_ [_ [key [K _]]]]; [congruence|].
    destruct (hs_sent B order sha1 q key r r' out D S K H E) as [_ [_ [_ [_ [_ [X _]]]]]]; [lia|].
    rewrite (X P C). apply in_or_app. right. now left.
Qed.
Print Assumptions C133_refuted.
