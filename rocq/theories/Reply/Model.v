(** Model of the head of HTTP/1 responses (src/mtev_http1.c): status, headers,
    options, the leader that is written, and the websocket handshake. *)
From Coq Require Import NArith Arith List Bool Ascii String.
From Verif.B64 Require Model.
Import ListNotations.
Local Open Scope nat_scope.

Definition bytes := list N.
(** A C string literal. *)
Fixpoint bs (s : string) : bytes :=
  match s with EmptyString => [] | String a r => N_of_ascii a :: bs r end.
(** strcmp(..) == 0 *)
Fixpoint beq (a b : bytes) : bool :=
  match a, b with
  | [], [] => true
  | x :: a', y :: b' => N.eqb x y && beq a' b'
  | _, _ => false
  end.
(** tolower in the C locale, as strncasecmp applies it (mtev_http1.c:2013) *)
Definition lower (c : N) : N := if (N.leb 65 c && N.leb c 90)%N then (c + 32)%N else c.

(** The outcome of the construction: a value, an access outside of a block, or
    a loop without end. *)
Inductive res (A : Type) := Done (a : A) | Bad | Hang.
Arguments Done {A}. Arguments Bad {A}. Arguments Hang {A}.

(** mtev_http1.h:44-46 the protocols (in the order of the enumeration) *)
Inductive proto := P09 | P10 | P11.
(** proto equality (mtev_http1.c:1911, 1914, 1977) *)
Definition is11 (p : proto) : bool := match p with P11 => true | _ => false end.
(** mtev_http.h:58-62 the options, one per bit *)
Record options := mkopt { chunked : bool; closing : bool; gzip : bool; deflate : bool; lz4f : bool }.
(** none set, and the sets of one *)
Definition o0 := mkopt false false false false false.
Definition oCHUNKED := mkopt true false false false false.
Definition oCLOSE := mkopt false true false false false.
Definition oGZIP := mkopt false false true false false.
Definition oDEFLATE := mkopt false false false true false.
Definition oLZ4F := mkopt false false false false true.
(** the bitwise or (mtev_http1.c:1925) *)
Definition oor (a b : options) : options :=
  mkopt (chunked a || chunked b) (closing a || closing b) (gzip a || gzip b) (deflate a || deflate b) (lz4f a || lz4f b).
(** (a & b) != 0 (mtev_http1.c:1923) *)
Definition common (a b : options) : bool :=
  (chunked a && chunked b) || (closing a && closing b) || (gzip a && gzip b) || (deflate a && deflate b) || (lz4f a && lz4f b).
(** any of MTEV_HTTP_GZIP | MTEV_HTTP_DEFLATE | MTEV_HTTP_LZ4F (mtev_http1.c:1915,1928) *)
Definition encodings (o : options) : bool := gzip o || deflate o || lz4f o.

(** Header tables; mtev_hash_replace on the exact name *)
Definition table := list (bytes * bytes).
Fixpoint hget (t : table) (k : bytes) : option bytes :=
  match t with
  | [] => None
  | (k', v) :: r => if beq k' k then Some v else hget r k
  end.
Fixpoint hset (t : table) (k v : bytes) : table :=
  match t with
  | [] => [(k, v)]
  | (k', v') :: r => if beq k' k then (k', v) :: r else (k', v') :: hset r k v
  end.

(** The request: protocol, what the client accepts, headers (mtev_http1.c:80-111) *)
Record request := mkreq { rprotocol : proto; ropts : options; rheaders : table }.
(** The response (mtev_http1.c:113-142) and conn.needs_close *)
Record response := mkresp { started : bool; protocol : proto; status : N; reason : option bytes;
                            headers : table; opts : options; needs_close : bool }.
(** calloc, and mtev_hash_init *)
Definition fresh : response := mkresp false P09 0 None [] o0 false.

(** mtev_http1.c:1874-1887 mtev_http1_response_status_set *)
Definition status_set (q : request) (r : response) (code : N) (why : bytes) : bool * response :=
  if started r then (false, r)
  else
    let r := mkresp (started r) (rprotocol q) (status r) (reason r) (headers r) (opts r) (needs_close r) in
    if (code <? 100)%N || (999 <? code)%N then (false, r)
    else (true, mkresp (started r) (protocol r) code (Some why) (headers r) (opts r) (needs_close r)).
(** mtev_http1.c:1897-1905 mtev_http1_response_header_set *)
Definition header_set (r : response) (name value : bytes) : bool * response :=
  if started r then (false, r)
  else (true, mkresp (started r) (protocol r) (status r) (reason r) (hset (headers r) name value) (opts r) (needs_close r)).
(** mtev_http1.c:1926-1937 the headers the options add *)
Definition option_headers (o : options) (t : table) : table :=
  let t := if chunked o then hset t (bs "Transfer-Encoding") (bs "chunked") else t in
  let t := if encodings o then
             let t := hset t (bs "Vary") (bs "Accept-Encoding") in
             if gzip o then hset t (bs "Content-Encoding") (bs "gzip")
             else if deflate o then hset t (bs "Content-Encoding") (bs "deflate")
             else hset t (bs "Content-Encoding") (bs "lz4f")
           else t in
  if closing o then hset t (bs "Connection") (bs "close") else t.
(** mtev_http1.c:1906-1942 mtev_http1_response_option_set *)
Definition option_set (q : request) (r : response) (o : options) : bool * response :=
  if started r then (false, r)
  else if negb (is11 (protocol r)) && chunked o then (false, r)
  else if negb (is11 (protocol r)) && encodings o then (false, r)
  else if (let u := oor (opts r) o in gzip u && deflate u && lz4f u) then (false, r)
  else if negb (common o (ropts q)) then (false, r)
  else
    let u := oor (opts r) o in
    (true, mkresp (started r) (protocol r) (status r) (reason r) (option_headers u (headers r)) u
                  (needs_close r || closing u)).

(** * The leader *)

(** %03d of a status below 1000 (mtev_http1.c:1964) *)
Definition code3 (n : N) : bytes := [48 + n / 100 mod 10; 48 + n / 10 mod 10; 48 + n mod 10]%N.
(** mtev_http1.c:1959-1966 the text of the status line *)
Definition status_text (r : response) : bytes :=
  match protocol r with P11 => bs "HTTP/1.1" | P10 => bs "HTTP/1.0" | P09 => bs "HTTP/0.9" end
  ++ 32%N :: code3 (status r) ++ 32%N :: match reason r with Some w => w | None => bs "unknown" end ++ [13; 10]%N.
(** mtev_http1.c:1977-1987 *)
Definition choose_encoding (q : request) (r : response) : response :=
  if is11 (protocol r) && chunked (opts r) then
    if gzip (ropts q) then snd (option_set q r oGZIP)
    else if deflate (ropts q) then snd (option_set q r oDEFLATE)
    else if lz4f (ropts q) then snd (option_set q r oLZ4F)
    else r
  else r.
(** mtev_http1.c:2012-2013 a name that is Content-Length *)
Definition is_cl (k : bytes) : bool :=
  (List.length k =? 14) && beq (map lower k) (bs "content-length").
(** mtev_http1.c:2000-2031 the names, and the choice of a framing; [fuel] bounds
    the rounds of the loop *)
Fixpoint framing (fuel : nat) (q : request) (r : response) : res (response * list bytes) :=
  match fuel with
  | O => Hang
  | S fuel =>
      let keys := map fst (headers r) in
      if existsb is_cl keys || chunked (opts r) || closing (opts r) then Done (r, keys)
      else match option_set q r oCHUNKED with
           | (true, r) => framing fuel q r
           | (false, r) => match option_set q r oCLOSE with
                           | (true, r) => framing fuel q r
                           | (false, r) => Done (r, keys)
                           end
           end
  end.
(** A chain of blocks being filled: those that are full, the last one and its
    size *)
Record chain := mkchain { full : list bytes; last_block : bytes; allocd : nat }.
(** mtev_http1.c:1989-1999 CTX_LEADER_APPEND; [B] is DEFAULT_BCHAINSIZE *)
Definition append (B : nat) (c : chain) (s : bytes) : chain :=
  if allocd c - List.length (last_block c) <? List.length s
  then mkchain (full c ++ [last_block c]) s (Nat.max (List.length s) B)
  else mkchain (full c) (last_block c ++ s) (allocd c).
(** mtev_http1.c:2034-2044 one header *)
Definition append_header (B : nat) (t : table) (c : chain) (k : bytes) : chain :=
  let v := match hget t k with Some v => v | None => [] end in
  let c := append B (append B c k) [58; 32]%N in
  let c := match v with [] => c | _ => append B c v end in
  append B c [13; 10]%N.
(** mtev_http1.c:1946-2049 _http_construct_leader: the response then, and the
    contents of the blocks. [order] is what qsort does with casesort. A status
    line of the size of the block loses its last byte; a longer one makes the
    space that is left wrap around. *)
Definition leader (B : nat) (order : list bytes -> list bytes) (q : request) (r : response) : res (response * list bytes) :=
  let text := status_text r in
  if B <? List.length text then Bad
  else
    let first := if List.length text =? B then firstn (B - 1) text ++ [0%N] else text in
    match framing 3 q (choose_encoding q r) with
    | Done (r, keys) =>
        let c := fold_left (append_header B (headers r)) (order keys) (mkchain [] first B) in
        let c := append B c [13; 10]%N in
        Done (r, full c ++ [last_block c])
    | Bad => Bad
    | Hang => Hang
    end.
(** mtev_http1.c:2060-2066 the first flush *)
Definition start (B : nat) (order : list bytes -> list bytes) (q : request) (r : response) : res (response * list bytes) :=
  match leader B order q r with
  | Done (r, out) => Done (mkresp true (protocol r) (status r) (reason r) (headers r) (opts r) (needs_close r), out)
  | Bad => Bad
  | Hang => Hang
  end.

(** mtev_http_private.h:160-168 _http_encode_chain: what the body goes through *)
Inductive coding := Plain | Gzip | Deflate | Lz4f.
(** its choice *)
Definition body_coding (r : response) : coding :=
  if gzip (opts r) then Gzip else if deflate (opts r) then Deflate else if lz4f (opts r) then Lz4f else Plain.
(** mtev_http1.c:2076-2079 the end of the body *)
Definition ending (r : response) : bytes :=
  if chunked (opts r) then bs "0" ++ [13; 10; 13; 10]%N else [].

(** * What a handler does *)
Inductive op := Status (code : N) (why : bytes) | Header (name value : bytes) | Option (o : options).
(** one call: its answer and the response *)
Definition call (q : request) (r : response) (o : op) : bool * response :=
  match o with
  | Status c w => status_set q r c w
  | Header k v => header_set r k v
  | Option o => option_set q r o
  end.
(** a sequence of calls *)
Definition run (q : request) (r : response) (l : list op) : response :=
  fold_left (fun r o => snd (call q r o)) l r.
(** mtev_http.h:247-252 mtev_http_response_standard *)
Definition standard (q : request) (r : response) (code : N) (name type : bytes) : response :=
  let r := snd (status_set q r code name) in
  let r := snd (header_set r (bs "Content-Type") type) in
  match option_set q r oCHUNKED with
  | (true, r) => r
  | (false, r) => snd (option_set q r oCLOSE)
  end.

(** * Websockets *)

(** mtev_http1.c:1474-1475 *)
Definition GUID : bytes := bs "258EAFA5-E914-47DA-95CA-C5AB0DC85B11".
Definition KEY_LEN : nat := 24.
(** mtev_http1.c:1477-1499 mtev_http1_create_websocket_accept_key; [sha1] is the
    digest (OpenSSL) *)
Definition accept_key (sha1 : bytes -> bytes) (key : bytes) : bytes :=
  Verif.B64.Model.encode (sha1 (firstn KEY_LEN key ++ firstn 36 GUID)) (Verif.B64.Model.encode_len 20 + 1).
(** mtev_http1.c:1519-1550 mtev_http1_websocket_handshake: the response that will
    be flushed, [None] if the connection is not upgraded *)
Definition handshake (sha1 : bytes -> bytes) (q : request) (r : response) : option response :=
  match hget (rheaders q) (bs "upgrade"), hget (rheaders q) (bs "connection"), hget (rheaders q) (bs "sec-websocket-key") with
  | Some _, Some _, Some key =>
      if negb (List.length key =? KEY_LEN) then None
      else
        let r := snd (header_set r (bs "Upgrade") (bs "websocket")) in
        let r := snd (header_set r (bs "Connection") (bs "Upgrade")) in
        let r := snd (header_set r (bs "Sec-WebSocket-Accept") (accept_key sha1 key)) in
        let r := match hget (rheaders q) (bs "sec-websocket-protocol") with
                 | Some p => snd (header_set r (bs "Sec-WebSocket-Protocol") p) | None => r end in
        let r := match hget (rheaders q) (bs "sec-websocket-version") with
                 | Some v => snd (header_set r (bs "Sec-WebSocket-Version") v) | None => r end in
        Some (snd (status_set q r 101 (bs "Switching Protocols")))
  | _, _, _ => None
  end.
