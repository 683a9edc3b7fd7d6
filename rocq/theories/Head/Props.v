(** The properties of reading request heads and query strings. *)
From Coq Require Import NArith ZArith List Bool String Lia ZifyBool ZifyNat ZifyN.
From Verif.Head Require Import Model Spec Proofs Proofs2 Proofs3 Proofs4 Proofs5 Proofs6 Proofs7.
Import ListNotations.
Local Open Scope string_scope.
Local Open Scope list_scope.
Local Open Scope nat_scope.

Ltac absent := let H := fresh in intro H; vm_compute in H; repeat (destruct H as [H|H]; [discriminate H|]); exact H.
Ltac single := match goal with |- one_line ?l => exact (proj1 (memmem_none [13%N; 10%N] l) eq_refl) end.

(** ** C108: an URL encoded text is decoded to the text it encodes. *)
Theorem C108_decoded : forall s w, encodes s w -> urldecode w = s.
Proof. exact urldecode_encodes. Qed.
Print Assumptions C108_decoded.
Example C108_decoded_ex : encodes (bs "a /b") (bs "a+%2fb") /\ urldecode (bs "a+%2fb") = bs "a /b".
Proof.
  split; [|vm_compute; reflexivity].
  apply enc_self; [discriminate..|]. apply enc_plus. apply (enc_hex 2 15); [lia|lia|left; split; [lia|reflexivity]|right; left; split; [lia|reflexivity]|].
  apply enc_self; [discriminate..|]. constructor.
Qed.
(** any text is decoded, to the one text it stands for: a percent sign that two
    digits do not follow stands for itself *)
Theorem C108_any_text : forall w, means (urldecode w) w /\ forall s, means s w -> s = urldecode w.
Proof.
  intro w. split; [apply (urldecode_means (List.length w)); auto|]. intros s M.
  apply (means_fun s w M). apply (urldecode_means (List.length w)); auto.
Qed.
Print Assumptions C108_any_text.
Example C108_any_text_ex : urldecode (bs "100%") = bs "100%" /\ urldecode (bs "%zz%4") = bs "%zz%4" /\ urldecode (bs "%%41") = bs "%A".
Proof. vm_compute. auto. Qed.

(** ** C109: the parameters of a query string are those it states. *)
Theorem C109_parameters : forall path w ps q,
  encodes path w -> ~ In 63%N w -> clean path -> query ps q -> Forall nul_free ps ->
  exists t, process_uri (w ++ 63%N :: q) = (path, Some q, t)
    /\ (forall k v, first_value k ps v -> querystring t k = v)
    /\ (forall k, qget t k <> None <-> exists v, In (k, v) ps).
Proof. exact uri_params. Qed.
Print Assumptions C109_parameters.
Example C109_parameters_ex :
  query [(bs "a", Some (bs "1")); (bs "b", None); (bs "a", Some (bs "2"))] (bs "a=1&b&&a=2") /\
  let '(p, o, t) := process_uri (bs "/x%20y?a=1&b&&a=2") in p = bs "/x y" /\ o = Some (bs "a=1&b&&a=2") /\
  querystring t (bs "a") = Some (bs "1") /\ querystring t (bs "b") = None.
Proof.
  assert (E : forall c, c <> 37%N -> c <> 43%N -> encodes [c] [c]) by (intros; repeat constructor; auto).
  split; [|vm_compute; auto].
  apply (query_cons (bs "a", Some (bs "1")) _ (bs "a=1") (bs "b&&a=2")).
  { apply (piece_value (bs "a") (bs "1") (bs "a") (bs "1")); try (apply E; discriminate); absent. }
  apply (query_cons (bs "b", None) _ (bs "b") (bs "&a=2")).
  { apply piece_bare; try (apply E; discriminate); try absent. discriminate. }
  apply (query_amp _ (bs "a=2")). apply query_last.
  apply (piece_value (bs "a") (bs "2") (bs "a") (bs "2")); try (apply E; discriminate); absent.
Qed.
Theorem C109_without : forall path w, encodes path w -> ~ In 63%N w -> clean path ->
  process_uri w = (path, None, []).
Proof. exact uri_plain. Qed.
Print Assumptions C109_without.
Example C109_without_ex : encodes (bs "/a") (bs "/%61") /\ process_uri (bs "/%61") = (bs "/a", None, []).
Proof.
  split; [|vm_compute; reflexivity]. apply enc_self; [discriminate..|].
  apply (enc_hex 6 1); [lia|lia|left; split; [lia|reflexivity]|left; split; [lia|reflexivity]|constructor].
Qed.

(** a request to speak about *)
Definition ex_fields : list (bytes * bytes) := [(bs "host", bs "a b"); (bs "accept-encoding", bs "x, gzip"); (bs "host", bs "z")].
Definition ex_first : bytes := bs "GET" ++ 32%N :: bs "/x?y" ++ 32%N :: bs "HTTP/1.1".
Definition ex_lines : list bytes := [bs "Host: a"; bs " b"; bs "Accept-Encoding:x, gzip"; bs "HOST : z"].
Lemma sm : forall c d, (if ((65 <=? d) && (d <=? 90))%N then (c =? d + 32)%N else (c =? d)%N) = true -> small c d.
Proof. intros c d H. unfold small. destruct ((65 <=? d) && (d <=? 90))%N eqn:E; lia. Qed.
Ltac smalls := repeat (constructor; [apply sm; reflexivity|]); constructor.
Ltac nostart := let c := fresh in let r := fresh in let E := fresh in let H := fresh in
  intros (c & r & E & H); vm_compute in E; injection E as <- <-; lia.
Ltac noend := let c := fresh in let r := fresh in let E := fresh in let H := fresh in
  intros (c & r & E & H); apply (f_equal (@rev N)) in E; rewrite rev_app_distr in E; vm_compute in E;
  injection E as <- _; lia.
Ltac a_field n wr w1 w2 v := apply (field_line (bs n) (bs wr) (bs w1) (bs w2) (bs v));
  [smalls|absent|nostart|noend|let X := fresh in intro X; vm_compute in X; discriminate X|repeat constructor; auto|repeat constructor; auto|nostart].
Lemma ex_ok : fields_of ex_fields ex_lines /\ lines_ok (ex_first :: ex_lines) /\ ~ In 32%N (bs "GET") /\ ~ In 32%N (bs "/x?y").
Proof.
  split; [|split; [|split; absent]].
  - apply (fields_cons (bs "host") (bs "a b") [bs "Host: a"; bs " b"] _ [bs "Accept-Encoding:x, gzip"; bs "HOST : z"]).
    { apply (field_fold (bs "host") (bs "a") [bs "Host: a"] (bs " ") (bs "b")); [|discriminate|repeat constructor; auto|nostart].
      a_field "host" "Host" "" " " "a". }
    apply (fields_cons (bs "accept-encoding") (bs "x, gzip") [bs "Accept-Encoding:x, gzip"] _ [bs "HOST : z"]).
    { a_field "accept-encoding" "Accept-Encoding" "" "" "x, gzip". }
    apply (fields_cons (bs "host") (bs "z") [bs "HOST : z"] [] []); [|constructor].
    a_field "host" "HOST" " " " " "z".
  - unfold lines_ok, ex_lines. repeat (apply Forall_cons; [split; [absent|single]|]). apply Forall_nil.
Qed.

(** ** C110: a request is taken as it was written, however the network cuts it. *)
Theorem C110_request : forall B ans n m u p hs ls rest, let l1 := m ++ 32%N :: u ++ 32%N :: p in
  ~ In 32%N m -> ~ In 32%N u -> fields_of hs ls -> lines_ok (l1 :: ls) ->
  List.length (crlfs n ++ head (l1 :: ls)) <= B - B / 4 -> ~ In Eof ans ->
  List.length (crlfs n ++ head (l1 :: ls)) <= readies ans ->
  last_value (bs "expect") hs None ->
  exists r l v, serve B ans (crlfs n ++ head (l1 :: ls) ++ rest) = Served r l v
    /\ pending l v = rest
    /\ method_str r = m /\ uri_str r = u /\ protocol_str r = p
    /\ (forall k o, last_value k hs o -> hget (fields r) k = o)
    /\ (wants_gzip r = true <-> mentions hs (bs "accept-encoding") (bs "gzip"))
    /\ (wants_deflate r = true <-> mentions hs (bs "accept-encoding") (bs "deflate"))
    /\ (wants_lz4f r = true <-> mentions hs (bs "accept-encoding") (bs "lz4f"))
    /\ expects r = false.
Proof. exact request_ok. Qed.
Print Assumptions C110_request.
Example C110_request_ex : fields_of ex_fields ex_lines /\ lines_ok (ex_first :: ex_lines) /\
  last_value (bs "host") ex_fields (Some (bs "z")) /\ last_value (bs "expect") ex_fields None /\
  mentions ex_fields (bs "accept-encoding") (bs "gzip") /\
  match serve 100 (repeat (Ready 6) 11) (crlfs 1 ++ head (ex_first :: ex_lines) ++ bs "tail") with
  | Served r l v => hget (fields r) (bs "host") = Some (bs "z") /\ pending l v = bs "tail"
  | _ => False
  end.
Proof.
  destruct ex_ok as (F & O & _). split; [exact F|]. split; [exact O|].
  split; [apply (last_some _ [(bs "host", bs "a b"); (bs "accept-encoding", bs "x, gzip")] (bs "z") []); intros v []|].
  split; [apply last_none; intros v H; vm_compute in H; repeat (destruct H as [H|H]; [discriminate H|]); exact H|].
  split; [exists (bs "x, gzip"); split; [vm_compute; auto|exists (bs "x, "), []; reflexivity]|].
  vm_compute. auto.
Qed.

(** ** C111: what becomes of a head does not depend on how the network cuts it. *)
Theorem C111_splits_partial : forall ls, lines ls -> exists R, forall B n rest ans,
  List.length (crlfs n ++ head ls) <= B - B / 4 -> ~ In Eof ans ->
  match serve B ans (crlfs n ++ head ls ++ rest) with
  | Waiting _ _ => readies ans < List.length (crlfs n ++ head ls)
  | Served r l u => R = Some r /\ pending l u = rest
  | Closed => R = None
  | Undefined => False
  end.
Proof. exact small_heads. Qed.
Print Assumptions C111_splits_partial.
Example C111_splits_partial_ex : lines [bs "nonsense"; bs "x: y"] /\
  serve 100 [Ready 3; Again; Ready 20] (head [bs "nonsense"; bs "x: y"]) = Closed /\
  serve 100 (repeat (Ready 0) 20) (head [bs "nonsense"; bs "x: y"]) = Closed.
Proof.
  split; [|vm_compute; auto]. split; [discriminate|].
  repeat (apply Forall_cons; [split; [single|discriminate]|]). apply Forall_nil.
Qed.
(** a larger head is not understood when a block ends within its last line end *)
Theorem C111_terminator_refuted : forall B ls a z m, lines ls -> head ls = a ++ z -> 12 <= B -> 1 <= List.length z <= 3 ->
  List.length a <= B -> B - List.length a < B / 4 ->
  serve B (two_reads a z m) (a ++ z) = Closed \/ exists i, serve B (two_reads a z m) (a ++ z) = Waiting i [].
Proof. intros B ls a z m L E. apply cut_terminator. rewrite <- E. apply lines_whole. exact L. Qed.
Print Assumptions C111_terminator_refuted.
Definition get_x : list bytes := [bs "GET / HTTP/1.1"; bs "x: y"].
Lemma get_x_lines : lines get_x.
Proof. split; [discriminate|]. repeat (apply Forall_cons; [split; [single|discriminate]|]). apply Forall_nil. Qed.
Example C111_terminator_refuted_ex : lines get_x /\ List.length (head get_x) = 24 /\
  (exists r l v, serve 40 (repeat (Ready 5) 4) (head get_x) = Served r l v) /\
  (exists i, serve 26 (two_reads (firstn 21 (head get_x)) (skipn 21 (head get_x)) 9) (head get_x) = Waiting i []) /\
  (exists r l v, serve 26 (two_reads (firstn 17 (head get_x)) (skipn 17 (head get_x)) 9) (head get_x) = Served r l v).
Proof.
  split; [exact get_x_lines|]. split; [reflexivity|]. split; [vm_compute; eauto|]. split; vm_compute; eauto.
Qed.
(** nor when a block ends within a line *)
Theorem C111_crossing_refuted : forall B ps t u qs, let d1 := text ps ++ t in let d2 := u ++ 13%N :: 10%N :: head qs in
  lines (ps ++ (t ++ u) :: qs) -> ps <> [] -> 4 <= List.length (text ps) -> ~ In 10%N t -> t <> [] ->
  List.length d1 <= B -> List.length d2 <= B -> B - List.length d1 < B / 4 ->
  head (ps ++ (t ++ u) :: qs) = d1 ++ d2 /\
  (B < List.length t + List.length u + 2 -> serve B (two_reads d1 d2 0) (d1 ++ d2) = Closed) /\
  (List.length t + List.length u + 2 <= B -> List.length t < List.length u + 2 ->
     serve B (two_reads d1 d2 0) (d1 ++ d2) = Undefined) /\
  (List.length u + 2 <= List.length t -> qs = [] -> serve B (two_reads d1 d2 0) (d1 ++ d2) = Closed).
Proof. exact crossing_head. Qed.
Print Assumptions C111_crossing_refuted.
Definition ex_ps : list bytes := [bs "GET / HTTP/1.1"].
Example C111_crossing_refuted_ex :
  lines (ex_ps ++ [bs "host: w" ++ bs "ww"]) /\
  (exists r l v, serve 60 (repeat (Ready 59) 4) (head (ex_ps ++ [bs "host: www"])) = Served r l v) /\
  serve 28 (two_reads (text ex_ps ++ bs "host: w") (bs "ww" ++ [13; 10; 13; 10]%N) 0) (head (ex_ps ++ [bs "host: www"])) = Closed.
Proof.
  split; [|vm_compute; eauto 6]. split; [discriminate|]. repeat (apply Forall_cons; [split; [single|discriminate]|]). apply Forall_nil.
Qed.

(** ** C112: only what is a request is taken for one. *)
Theorem C112_accepted : forall B ans n l1 ls rest r l v, l1 <> [] -> Forall (fun l => l <> []) ls -> lines_ok (l1 :: ls) ->
  List.length (crlfs n ++ head (l1 :: ls)) <= B - B / 4 -> ~ In Eof ans ->
  serve B ans (crlfs n ++ head (l1 :: ls) ++ rest) = Served r l v ->
  exists m u p hs, l1 = m ++ 32%N :: u ++ 32%N :: p /\ ~ In 32%N m /\ ~ In 32%N u /\ fields_of hs ls.
Proof. exact accepted. Qed.
Print Assumptions C112_accepted.
Example C112_accepted_ex :
  (exists r l v, serve 100 [Ready 50] (head get_x) = Served r l v) /\
  serve 100 [Ready 50] (head [bs "GET /"; bs "x: y"]) = Closed /\
  serve 100 [Ready 50] (head [bs "GET / HTTP/1.1"; bs "no colon"]) = Closed /\
  serve 100 [Ready 50] (head [bs "GET / HTTP/1.1"; bs " x: y"]) = Closed.
Proof. vm_compute. eauto 8. Qed.

(** ** C113: no header of a served request is lost. *)
Theorem C113_nul_refuted : forall B ans n ls rest r l v B' ans' n' ls' rest' r' l' v' a b b',
  lines ls -> lines ls' -> text ls = a ++ 0%N :: b -> text ls' = a ++ 0%N :: b' ->
  List.length (crlfs n ++ head ls) <= B - B / 4 -> ~ In Eof ans ->
  List.length (crlfs n' ++ head ls') <= B' - B' / 4 -> ~ In Eof ans' ->
  serve B ans (crlfs n ++ head ls ++ rest) = Served r l v ->
  serve B' ans' (crlfs n' ++ head ls' ++ rest') = Served r' l' v' -> r = r'.
Proof. exact nul_same. Qed.
Print Assumptions C113_nul_refuted.
Definition smuggle (tail : list bytes) : list bytes := [bs "POST / HTTP/1.1"; bs "a: b" ++ [0%N]] ++ tail.
Example C113_nul_refuted_ex : lines (smuggle [bs "Content-Length: 5"]) /\
  match serve 100 [Ready 99] (head (smuggle [bs "Content-Length: 5"]) ++ bs "GET /") with
  | Served r l v => payload r = NoBody /\ hget (fields r) (bs "content-length") = None /\ pending l v = bs "GET /"
  | _ => False
  end.
Proof.
  split; [|vm_compute; auto]. split; [discriminate|]. repeat (apply Forall_cons; [split; [single|discriminate]|]). apply Forall_nil.
Qed.
Theorem C113_kept_partial : forall B ans n m u p hs ls rest r l v k o, let l1 := m ++ 32%N :: u ++ 32%N :: p in
  ~ In 32%N m -> ~ In 32%N u -> fields_of hs ls -> lines_ok (l1 :: ls) ->
  List.length (crlfs n ++ head (l1 :: ls)) <= B - B / 4 -> ~ In Eof ans ->
  serve B ans (crlfs n ++ head (l1 :: ls) ++ rest) = Served r l v ->
  last_value k hs o -> hget (fields r) k = o.
Proof.
  intros B ans n m u p hs ls rest r l v k o l1 A1 A2 F O Lim NE E V.
  apply (served_fields B ans n m u p hs ls rest r l v) in E; auto.
  apply conclude_inv in E as (m' & u' & p' & e & _ & ->). apply started_get. exact V.
Qed.
Print Assumptions C113_kept_partial.
Example C113_kept_partial_ex : fields_of ex_fields ex_lines /\ lines_ok (ex_first :: ex_lines) /\
  match serve 100 [Ready 99] (head (ex_first :: ex_lines)) with
  | Served r l v => hget (fields r) (bs "accept-encoding") = Some (bs "x, gzip")
  | _ => False
  end.
Proof. destruct ex_ok as (F & O & _). split; [exact F|]. split; [exact O|]. vm_compute. auto. Qed.

(** ** C114: the body of a request is delimited as RFC 7230 section 3.3.3 says. *)
Theorem C114_framing_partial : forall B ans n m u p hs ls rest r l v, let l1 := m ++ 32%N :: u ++ 32%N :: p in
  ~ In 32%N m -> ~ In 32%N u -> fields_of hs ls -> lines_ok (l1 :: ls) ->
  List.length (crlfs n ++ head (l1 :: ls)) <= B - B / 4 -> ~ In Eof ans ->
  serve B ans (crlfs n ++ head (l1 :: ls) ++ rest) = Served r l v ->
  (last_value (bs "transfer-encoding") hs (Some (bs "chunked")) -> payload r = Chunked) /\
  (forall te c x, last_value (bs "transfer-encoding") hs te -> te <> Some (bs "chunked") ->
     last_value (bs "content-length") hs (Some c) -> decimal c x -> (x < 2 ^ 63)%Z -> payload r = Length x) /\
  (forall te, last_value (bs "transfer-encoding") hs te -> te <> Some (bs "chunked") ->
     last_value (bs "content-length") hs None -> payload r = NoBody).
Proof. exact body_of. Qed.
Print Assumptions C114_framing_partial.
Definition post (hs : list bytes) : option body :=
  match serve 100 [Ready 99] (head (bs "POST / HTTP/1.1" :: hs)) with
  | Served r _ _ => Some (payload r)
  | _ => None
  end.
Example C114_framing_partial_ex :
  decimal (bs "12") 12 /\ post [bs "Content-Length: 12"] = Some (Length 12) /\
  post [bs "Transfer-Encoding: chunked"; bs "Content-Length: 12"] = Some Chunked /\ post [] = Some NoBody.
Proof.
  split; [|vm_compute; auto]. apply (dec_more (bs "1") 1 50); [|lia]. apply (dec_one 49). lia.
Qed.
(** a coding written in another case is passed over, and so is a list that ends
    with it; the number need not be one *)
Theorem C114_coding_refuted :
  ~ (forall ls te, lines ls -> In (bs "Transfer-Encoding: " ++ te) ls -> same_word te (bs "chunked") ->
       forall r l v, serve 100 [Ready 99] (head ls) = Served r l v -> payload r = Chunked).
Proof.
  intro H. refine ((fun K => _) (H [bs "POST / HTTP/1.1"; bs "Transfer-Encoding: Chunked"; bs "Content-Length: 5"] (bs "Chunked") _ _ _)).
  - destruct (serve 100 [Ready 99] (head [bs "POST / HTTP/1.1"; bs "Transfer-Encoding: Chunked"; bs "Content-Length: 5"])) as [i y|r l v| |] eqn:E.
    1,3,4: vm_compute in E; discriminate E.
    specialize (K r l v eq_refl). vm_compute in E. injection E as <- <- <-. discriminate K.
  - split; [discriminate|]. repeat (apply Forall_cons; [split; [single|discriminate]|]). apply Forall_nil.
  - right. left. reflexivity.
  - exists (bs "chunked"). split; smalls.
Qed.
Print Assumptions C114_coding_refuted.
Theorem C114_length_refuted :
  post [bs "Content-Length: -5"] = Some (Length (-5)) /\
  post [bs "Content-Length: 5x"] = Some (Length 5) /\
  post [bs "Content-Length: x"] = Some (Length 0) /\
  post [bs "Content-Length: 5"; bs "Content-Length: 6"] = Some (Length 6).
Proof. vm_compute. auto. Qed.
Print Assumptions C114_length_refuted.
(** a client that expects an answer first gets one if there is a body to come,
    and is turned away otherwise *)
Theorem C114_expect_partial : forall B ans n m u p hs ls rest x, let l1 := m ++ 32%N :: u ++ 32%N :: p in
  ~ In 32%N m -> ~ In 32%N u -> fields_of hs ls -> lines_ok (l1 :: ls) ->
  List.length (crlfs n ++ head (l1 :: ls)) <= B - B / 4 -> ~ In Eof ans ->
  List.length (crlfs n ++ head (l1 :: ls)) <= readies ans ->
  last_value (bs "expect") hs (Some x) ->
  (exists r l v, serve B ans (crlfs n ++ head (l1 :: ls) ++ rest) = Served r l v /\ expects r = true
     /\ (exists y, x = bs "100-" ++ y)
     /\ (last_value (bs "transfer-encoding") hs (Some (bs "chunked")) \/ exists c, last_value (bs "content-length") hs (Some c)))
  \/ (serve B ans (crlfs n ++ head (l1 :: ls) ++ rest) = Closed
     /\ ((forall y, x <> bs "100-" ++ y) \/
         (last_value (bs "content-length") hs None /\ ~ last_value (bs "transfer-encoding") hs (Some (bs "chunked"))))).
Proof. exact expect_ok. Qed.
Print Assumptions C114_expect_partial.
Example C114_expect_partial_ex :
  post [bs "Expect: 100-continue"; bs "Content-Length: 5"] = Some (Length 5) /\
  post [bs "Expect: 100-continue"] = None /\ post [bs "Expect: more"; bs "Content-Length: 5"] = None.
Proof. vm_compute. auto. Qed.

(** ** C115: no bytes a client can send make the reader leave its buffers. *)
Theorem C115_one_block_partial : forall B n ls rest ans, lines ls ->
  List.length (crlfs n ++ head ls) <= B - B / 4 -> ~ In Eof ans ->
  serve B ans (crlfs n ++ head ls ++ rest) <> Undefined.
Proof.
  intros B n ls rest ans L Lim NE E. destruct (small_heads ls L) as [R H]. specialize (H B n rest ans Lim NE).
  rewrite E in H. exact H.
Qed.
Print Assumptions C115_one_block_partial.
Example C115_one_block_partial_ex : lines [[13%N]; [0%N]; bs ":"] /\
  List.length (crlfs 0 ++ head [[13%N]; [0%N]; bs ":"]) <= 40 - 40 / 4 /\
  serve 40 [Ready 39] (head [[13%N]; [0%N]; bs ":"]) = Closed.
Proof.
  split; [|split; [vm_compute; lia|vm_compute; auto]]. split; [discriminate|].
  repeat (apply Forall_cons; [split; [single|discriminate]|]). apply Forall_nil.
Qed.
Theorem C115_two_blocks_refuted : forall B ps t u qs, let d1 := text ps ++ t in let d2 := u ++ 13%N :: 10%N :: head qs in
  lines (ps ++ (t ++ u) :: qs) -> ps <> [] -> 4 <= List.length (text ps) -> ~ In 10%N t -> t <> [] ->
  List.length d1 <= B -> List.length d2 <= B -> B - List.length d1 < B / 4 ->
  List.length t + List.length u + 2 <= B -> List.length t < List.length u + 2 ->
  serve B (two_reads d1 d2 0) (head (ps ++ (t ++ u) :: qs)) = Undefined.
Proof.
  intros B ps t u qs d1 d2 L Np L4 N Ne L1 L2 Sp H1 H2.
  destruct (crossing_head B ps t u qs L Np L4 N Ne L1 L2 Sp) as (E & _ & U & _). rewrite E. apply U; auto.
Qed.
Print Assumptions C115_two_blocks_refuted.
Example C115_two_blocks_refuted_ex : lines (ex_ps ++ [bs "h" ++ bs "ost: www"]) /\
  serve 20 (two_reads (text ex_ps ++ bs "h") (bs "ost: www" ++ [13; 10; 13; 10]%N) 0) (head (ex_ps ++ [bs "host: www"])) = Undefined.
Proof.
  split; [|vm_compute; reflexivity]. split; [discriminate|]. repeat (apply Forall_cons; [split; [single|discriminate]|]). apply Forall_nil.
Qed.

(** ** C116: the method and the protocol are recognized as RFC 7230 says: the
    method by its exact name. *)
Theorem C116_recognized_partial : forall B ans n m u p hs ls rest r l v, let l1 := m ++ 32%N :: u ++ 32%N :: p in
  ~ In 32%N m -> ~ In 32%N u -> fields_of hs ls -> lines_ok (l1 :: ls) ->
  List.length (crlfs n ++ head (l1 :: ls)) <= B - B / 4 -> ~ In Eof ans ->
  serve B ans (crlfs n ++ head (l1 :: ls) ++ rest) = Served r l v ->
  (method r = GET <-> same_word m (bs "GET") /\ exists x, m = 71%N :: x) /\
  (method r = HEAD <-> same_word m (bs "HEAD") /\ exists x, m = 72%N :: x) /\
  (method r = POST <-> same_word m (bs "POST") /\ exists x, m = 80%N :: x) /\
  (protocol r = HTTP11 <-> same_word p (bs "HTTP/1.1")) /\
  (protocol r = HTTP10 <-> same_word p (bs "HTTP/1.0")).
Proof. exact served_enums. Qed.
Print Assumptions C116_recognized_partial.
Definition kind (l : bytes) : option (meth * proto) :=
  match serve 100 [Ready 99] (head [l]) with
  | Served r _ _ => Some (method r, protocol r)
  | _ => None
  end.
Example C116_recognized_partial_ex :
  kind (bs "GET / HTTP/1.1") = Some (GET, HTTP11) /\ kind (bs "HEAD / http/1.0") = Some (HEAD, HTTP10).
Proof. vm_compute. auto. Qed.
Theorem C116_case_refuted : ~ (forall m, ~ In 32%N m -> forall x, kind (m ++ bs " / HTTP/1.1") = Some (GET, x) -> m = bs "GET").
Proof. intro H. specialize (H (bs "Get")). assert (bs "Get" = bs "GET"); [|discriminate].
  apply H with (x := HTTP11); [absent|vm_compute; reflexivity].
Qed.
Print Assumptions C116_case_refuted.
