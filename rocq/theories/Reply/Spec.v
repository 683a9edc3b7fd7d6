(** What is promised of the head of a response, in terms of the bytes on the
    wire. *)
From Coq Require Import NArith List Bool Ascii String Permutation Sorted.
From Verif.Reply Require Import Model.
From Verif.B64 Require Spec.
Import ListNotations.
Local Open Scope N_scope.

(** A text as bytes. *)
Definition text (s : string) : bytes := map N_of_ascii (list_ascii_of_string s).
Definition crlf : bytes := [13; 10].
(** Letters without their case; names that agree; the order of names. *)
Definition fold_case (c : N) : N := if (65 <=? c) && (c <=? 90) then c + 32 else c.
Definition same_name (a b : bytes) : Prop := map fold_case a = map fold_case b.
Fixpoint name_le (a b : bytes) : Prop :=
  match a, b with
  | [], _ => True
  | _ :: _, [] => False
  | x :: a', y :: b' => fold_case x < fold_case y \/ fold_case x = fold_case y /\ name_le a' b'
  end.
(** qsort with casesort: some arrangement of the same names, in order. *)
Definition sorts (order : list bytes -> list bytes) : Prop :=
  forall l, Permutation l (order l) /\ Sorted name_le (order l).

(** The status line. *)
Definition proto_name (p : proto) : bytes :=
  text match p with P11 => "HTTP/1.1" | P10 => "HTTP/1.0" | P09 => "HTTP/0.9" end.
Definition status_line (p : proto) (code : N) (why : option bytes) (l : bytes) : Prop :=
  exists a b c, a <= 9 /\ b <= 9 /\ c <= 9 /\ code = 100 * a + 10 * b + c /\
  l = proto_name p ++ [32] ++ [48 + a; 48 + b; 48 + c] ++ [32] ++ match why with Some w => w | None => text "unknown" end.
(** its length with its end *)
Definition line_len (r : response) : nat :=
  15 + match reason r with Some w => List.length w | None => 7 end.
(** The head of a message: a line, fields, an empty line. *)
Definition field_line (f : bytes * bytes) : bytes := fst f ++ text ": " ++ snd f.
Definition head_text (line : bytes) (fields : list (bytes * bytes)) : bytes :=
  line ++ crlf ++ flat_map (fun f => field_line f ++ crlf) fields ++ crlf.
(** The lines a client reads, up to the first empty one, and what follows. *)
Definition one_line (l : bytes) : Prop := ~ In 13 l /\ ~ In 10 l.
Inductive reads : bytes -> list bytes -> bytes -> Prop :=
| reads_end rest : reads (crlf ++ rest) [] rest
| reads_line l t ls rest : l <> [] -> one_line l -> reads t ls rest -> reads (l ++ crlf ++ t) (l :: ls) rest.

(** The values given under a name. *)
Definition name_is (n k : bytes) : bool :=
  if list_eq_dec N.eq_dec (map fold_case k) (map fold_case n) then true else false.
Definition values (n : bytes) (fields : list (bytes * bytes)) : list bytes :=
  map snd (filter (fun f => name_is n (fst f)) fields).

(** Handlers that leave the fields of framing and encoding to the server. *)
Definition leaves (n : bytes) (o : op) : Prop :=
  match o with Header k _ => ~ same_name k n | _ => True end.
Definition plain (o : op) : Prop :=
  leaves (text "Transfer-Encoding") o /\ leaves (text "Connection") o /\
  leaves (text "Content-Encoding") o /\ leaves (text "Vary") o.
(** Texts of one line only. *)
Definition clean (o : op) : Prop :=
  match o with
  | Header k v => one_line k /\ one_line v
  | Status _ w => one_line w
  | Option _ => True
  end.
(** Options asked for one at a time. *)
Definition single (o : op) : Prop :=
  match o with Option o => In o [oCHUNKED; oCLOSE; oGZIP; oDEFLATE; oLZ4F] | _ => True end.
(** How the client learns where the body ends. *)
Definition delimited (r : response) (fields : list (bytes * bytes)) : Prop :=
  values (text "Content-Length") fields <> [] \/
  (values (text "Transfer-Encoding") fields = [text "chunked"] /\ chunked (opts r) = true) \/
  (values (text "Connection") fields = [text "close"] /\ needs_close r = true).
(** The name of an encoding, and whether the client takes it. *)
Definition coding_name (c : coding) : list bytes :=
  match c with
  | Plain => []
  | Gzip => [text "gzip"]
  | Deflate => [text "deflate"]
  | Lz4f => [text "lz4f"]
  end.
Definition takes (q : request) (c : coding) : Prop :=
  match c with
  | Plain => True
  | Gzip => gzip (ropts q) = true
  | Deflate => deflate (ropts q) = true
  | Lz4f => lz4f (ropts q) = true
  end.

(** The names the server sets itself. *)
Definition own_names : list bytes :=
  [text "Transfer-Encoding"; text "Connection"; text "Content-Encoding"; text "Vary"].
(** Calls that do not touch the status, or a header. *)
Definition not_status (o : op) : Prop := match o with Status _ _ => False | _ => True end.
Definition not_header (k : bytes) (o : op) : Prop := match o with Header k' _ => k' <> k | _ => True end.

(** RFC 6455, 4.2.2: the accept key. *)
Definition rfc_accept (sha1 : bytes -> bytes) (key : bytes) : bytes :=
  Verif.B64.Spec.rfc4648_base64 (sha1 (key ++ text "258EAFA5-E914-47DA-95CA-C5AB0DC85B11")).
(** A digest of twenty octets. *)
Definition digest20 (sha1 : bytes -> bytes) : Prop :=
  forall m, List.length (sha1 m) = 20%nat /\ Verif.B64.Spec.bytes (sha1 m).
(** A field if there is a value. *)
Definition opt_field (n : bytes) (v : option bytes) : table := match v with Some v => [(n, v)] | None => [] end.
(** What an upgraded client is told. *)
Definition upgrade_fields (connection accept : bytes) (q : request) : list (bytes * bytes) :=
  [(text "Upgrade", text "websocket"); (text "Connection", connection); (text "Sec-WebSocket-Accept", accept)] ++
  opt_field (text "Sec-WebSocket-Protocol") (hget (rheaders q) (text "sec-websocket-protocol")) ++
  opt_field (text "Sec-WebSocket-Version") (hget (rheaders q) (text "sec-websocket-version")).
(** RFC 6455, 4.2.1: the client asked for the websocket protocol, version 13. *)
Definition asks_websocket (q : request) : Prop :=
  (exists u, hget (rheaders q) (text "upgrade") = Some u /\ same_name u (text "websocket")) /\
  (exists c a b, hget (rheaders q) (text "connection") = Some (a ++ c ++ b) /\ same_name c (text "upgrade")) /\
  (exists k, hget (rheaders q) (text "sec-websocket-key") = Some k /\ List.length k = 24%nat) /\
  hget (rheaders q) (text "sec-websocket-version") = Some (text "13").
