(** Model of the HTTP/1 request body reader and response writer of
    src/mtev_http1.c, src/mtev_http.c and src/mtev_http_private.h. *)
From Coq Require Import NArith ZArith List Bool.
Import ListNotations.
Local Open Scope N_scope.

(** Number of bytes in a buffer (size_t). *)
Definition len (l : list N) : N := N.of_nat (length l).

(** src/mtev_http_private.h:103: DEFAULT_BCHAINSIZE is (1 << 15) minus the
    offset of _buff in struct bchain (lines 90-100), 64 on an LP64 machine. *)
Definition DEFAULT_BCHAINSIZE : N := 32704.
(** src/mtev_http1.c:66 *)
Definition MAX_CHUNK_HEADER_SIZE : N := 20.

(** * The request body *)

(** src/mtev_http_private.h:90-100 struct bchain: start, the bytes at
    buff + start (size is their number) and allocd. The compression tag and
    the list links are left out: the input list has at most one element (the
    outcome [Grew] below marks where the code would add a second). *)
Record bchain := mkb { bstart : N; bdata : list N; ballocd : N }.

(** src/mtev_http1.c:81-121 struct mtev_http1_request, the fields the body
    reader uses: first_input (the only element of its list, as lines 1152-1160
    intend), user_data (the contents of its blocks), payload_chunked,
    read_last_chunk, content_length, content_length_read, payload_complete. *)
Record req := mkreq {
  first_input : option bchain;
  user_data : list (list N);
  chunked : bool;
  read_last_chunk : bool;
  content_length : Z;
  content_length_read : Z;
  payload_complete : bool }.

(** What one eventer_read call finds (src/eventer/eventer.h eventer_read, an
    external call): up to n+1 bytes are there, EAGAIN, or end of file / a
    socket error. *)
Inductive answer := Ready (n : N) | Again | Closed.

(** The peer's bytes not read so far and the answers of the coming reads. *)
Record sock := mksock { unread : list N; answers : list answer }.

(** src/mtev_http1.c:1089 mtev_memmem(.., "\r\n", 2): offset of the first CRLF. *)
Fixpoint find_crlf (l : list N) : option nat :=
  match l with
  | [] => None
  | c :: l' =>
      match l' with
      | d :: _ => if (c =? 13) && (d =? 10) then Some O
                  else option_map S (find_crlf l')
      | [] => None
      end
  end.

(** src/mtev_http1.c:1095-1097: the value of a hexadecimal digit. *)
Definition digit (c : N) : option N :=
  if (48 <=? c) && (c <=? 57) then Some (c - 48)
  else if (97 <=? c) && (c <=? 102) then Some (c - 97 + 10)
  else if (65 <=? c) && (c <=? 70) then Some (c - 65 + 10)
  else None.

(** unsigned int arithmetic *)
Definition w32 (x : N) : N := x mod 2 ^ 32.

(** src/mtev_http1.c:1094-1137: the loop over the size line up to the CRLF;
    None is the return of -2 at line 1134. clen is an unsigned int. *)
Fixpoint size_loop (l : list N) (clen : N) : option N :=
  match l with
  | [] => Some clen
  | c :: l' =>
      match digit c with
      | Some d => size_loop l' (N.lor (w32 (N.shiftl clen 4)) d)
      | None => None
      end
  end.

(** int next_chunk = clen (src/mtev_http1.c:1102): the unsigned int as an int. *)
Definition to_int (x : N) : Z :=
  if x <? 2 ^ 31 then Z.of_N x else (Z.of_N x - 2 ^ 32)%Z.

(** src/mtev_http1.c:1047-1051 and 1062-1086: a head block that has room for a
    chunk header. *)
Definition ready_head (h : option bchain) : bchain :=
  let b := match h with
           | Some b => b
           | None => mkb 0 [] DEFAULT_BCHAINSIZE
           end in
  if ballocd b - bstart b <? MAX_CHUNK_HEADER_SIZE then
    if MAX_CHUNK_HEADER_SIZE <=? ballocd b then mkb 0 (bdata b) (ballocd b)
    else mkb 0 (bdata b) DEFAULT_BCHAINSIZE
  else b.

(** src/mtev_http1.c:1107-1130: a block that can hold the whole chunk. *)
Definition fit_head (b : bchain) (need : N) : bchain :=
  if ballocd b - bstart b <? need
  then mkb 0 (bdata b) (N.max need DEFAULT_BCHAINSIZE)
  else b.

(** Outcome of mtev_http1_session_req_consume_read: the int it returns, with
    [blocked] telling whether errno was set to EAGAIN by a read, or [Grew]:
    a second input block was added (lines 1161-1162), after which the first
    block, the only one looked at, stays as it is for ever. [Oob]: head->size
    wraps around (line 1255) and the block claims bytes beyond its end. *)
Inductive cout :=
| Ret (next_chunk : Z) (blocked : bool) (first : option bchain)
      (data : list (list N)) (complete : bool) (s : sock)
| Grew
| Oob.

(** src/mtev_http1.c:1260-1266: an empty head block is freed. *)
Definition drop_empty (b : bchain) : option bchain :=
  match bdata b with [] => None | _ => Some b end.

(** src/mtev_http1.c:1207-1268 for a chunked payload. [ud] is user_data. *)
Definition finish_chunk (next_chunk : Z) (b : bchain) (ud : list (list N))
           (pc : bool) (s : sock) : cout :=
  if (0 <? next_chunk)%Z then
    let copy_size := N.min (len (bdata b)) (Z.to_N next_chunk) in
    let ud' := ud ++ [firstn (N.to_nat copy_size) (bdata b)] in
    let b' := mkb (bstart b + copy_size)
                  (skipn (N.to_nat copy_size) (bdata b)) (ballocd b) in
    match bdata b' with
    | 13 :: 10 :: tl =>
        Ret next_chunk false (drop_empty (mkb (bstart b' + 2) tl (ballocd b')))
            ud' pc s
    | _ => Ret (-2) false (Some b') ud' pc s
    end
  else if (next_chunk =? 0)%Z then
    if len (bdata b) <? 2 then Oob
    else Ret 0 false (drop_empty (mkb (bstart b + 2) (skipn 2 (bdata b)) (ballocd b)))
        ud true s
  else Ret next_chunk false (drop_empty b) ud pc s.

(** src/mtev_http1.c:1149-1205: the read. [again] is the loop's next round. *)
Definition pull (again : bchain -> sock -> cout) (b : bchain)
           (ud : list (list N)) (pc : bool) (s : sock) : cout :=
  if ballocd b <=? bstart b + len (bdata b) then Grew
  else
    match answers s with
    | [] => Ret (-1) true (Some b) ud pc s
    | Again :: r => Ret (-1) true (Some b) ud pc (mksock (unread s) r)
    | Closed :: r => Ret (-2) false (Some b) ud pc (mksock (unread s) r)
    | Ready n :: r =>
        match unread s with
        | [] => Ret (-1) true (Some b) ud pc (mksock [] r)
        | _ =>
            let k := N.to_nat (N.min (N.min (n + 1) (ballocd b - len (bdata b) - bstart b))
                                     (len (unread s))) in
            again (mkb (bstart b) (bdata b ++ firstn k (unread s)) (ballocd b))
                  (mksock (skipn k (unread s)) r)
        end
    end.

(** src/mtev_http1.c:1088-1142: what is done with a head block of a chunked
    payload before the read. *)
Definition chunk_step (again : bchain -> sock -> cout) (h : option bchain)
           (ud : list (list N)) (pc : bool) (s : sock) : cout :=
  let b := ready_head h in
  match find_crlf (bdata b) with
  | None => pull again b ud pc s
  | Some p =>
      match size_loop (firstn p (bdata b)) 0 with
      | None => Ret (-2) false (Some b) ud pc s
      | Some clen =>
          let need := w32 (clen + w32 (N.of_nat p + 4)) in
          if need <=? len (bdata b) then
            finish_chunk (to_int clen)
              (mkb (bstart b + N.of_nat p + 2) (skipn (p + 2) (bdata b)) (ballocd b))
              ud pc s
          else pull again (fit_head b need) ud pc s
      end
  end.

(** src/mtev_http1.c:1035-1269 mtev_http1_session_req_consume_read for a
    chunked payload: the while loop, one round per answer of the socket. *)
Fixpoint read_chunk (fuel : list answer) (h : option bchain)
         (ud : list (list N)) (pc : bool) (s : sock) : cout :=
  match fuel with
  | [] => chunk_step (fun b s' => Ret (-1) true (Some b) ud pc s') h ud pc s
  | _ :: f => chunk_step (fun b s' => read_chunk f (Some b) ud pc s') h ud pc s
  end.

(** src/mtev_http1.c:1207-1268 for a payload with a content length, next_chunk
    being the size of the head block (lines 1055-1058). *)
Definition finish_plain (b : bchain) (ud : list (list N)) (pc : bool)
           (remaining : Z) (s : sock) : cout :=
  let next_chunk := Z.of_N (len (bdata b)) in
  if (0 <? next_chunk)%Z then
    let copy_size := if (remaining <? next_chunk)%Z then Z.to_N remaining
                     else len (bdata b) in
    Ret next_chunk false
        (drop_empty (mkb (bstart b + copy_size)
                         (skipn (N.to_nat copy_size) (bdata b)) (ballocd b)))
        (ud ++ [firstn (N.to_nat copy_size) (bdata b)]) pc s
  else Ret next_chunk false (drop_empty b) ud pc s.

(** src/mtev_http1.c:1035-1269 mtev_http1_session_req_consume_read for a
    payload with a content length: [remaining] is content_length -
    content_length_read, positive (line 1336). At most one read is made: as
    soon as the block holds a byte, line 1056 ends the loop. *)
Definition read_plain (h : option bchain) (ud : list (list N)) (pc : bool)
           (remaining : Z) (s : sock) : cout :=
  let b := match h with
           | Some b => b
           | None => mkb 0 [] DEFAULT_BCHAINSIZE
           end in
  if (len (bdata b) =? ballocd b) || (0 <? len (bdata b))
  then finish_plain b ud pc remaining s
  else pull (fun b' s' => finish_plain b' ud pc remaining s') b ud pc s.

(** What mtev_http1_session_req_consume gives its caller: bytes, 0 (end of the
    body), -1 with errno EAGAIN, -1 with errno ENOTSUP, -1 with errno not set
    by this call (line 1328 after a chunk size that is negative as an int),
    or the state after [Grew], from which the body cannot be read any more, or
    the one after [Oob]. *)
Inductive cons := Got (bytes : list N) | Done | Wait | Fail | Stale | Stuck | Overrun.

(** src/mtev_http1.c:1384-1459: the inner loop, moving bytes from user_data to
    the caller's buffer of [n] bytes (no compression). Yields the bytes, the
    blocks that remain, and whether the loop left through line 1454 (the list
    became empty). An empty block stops the loop (line 1384). *)
Fixpoint fill (n : N) (ud : list (list N)) : list N * list (list N) * bool :=
  match ud with
  | [] => ([], [], true)
  | [] :: _ => ([], ud, false)
  | blk :: ud' =>
      if n =? 0 then ([], ud, false)
      else
        let k := N.to_nat (N.min (len blk) n) in
        match skipn k blk with
        | [] => let '(x, r, e) := fill (n - N.of_nat k) ud' in
                (firstn k blk ++ x, r, e)
        | tl => (firstn k blk, tl :: ud', false)
        end
  end.

(** The head of user_data is there and not empty (lines 1358, 1363, 1371, 1376). *)
Definition has_data (ud : list (list N)) : bool :=
  match ud with [] | [] :: _ => false | _ => true end.

(** src/mtev_http1.c:1357-1382: the answer when user_data has nothing. *)
Definition nothing (r : req) : cons :=
  if chunked r then if read_last_chunk r then Done else Wait
  else if (content_length_read r =? content_length r)%Z then Done else Wait.

(** src/mtev_http1.c:1354-1466: delivery out of user_data. *)
Definition deliver (r : req) (n : N) : cons * req :=
  let pc := payload_complete r ||
            (if chunked r then read_last_chunk r && negb (has_data (user_data r))
             else (content_length_read r =? content_length r)%Z) in
  let upd ud := mkreq (first_input r) ud (chunked r) (read_last_chunk r)
                      (content_length r) (content_length_read r) pc in
  if n =? 0 then (Done, r)
  else if has_data (user_data r) then
    let '(x, ud, emptied) := fill n (user_data r) in
    if emptied || (len x =? n) then (Got x, upd ud)
    else (nothing r, upd ud)
  else (nothing r, upd (user_data r)).

(** src/mtev_http1.c:1299-1467 mtev_http1_session_req_consume. *)
Definition consume (r : req) (s : sock) (user_len : N) : cons * req * sock :=
  if chunked r then
    if read_last_chunk r then
      let '(o, r') := deliver r user_len in (o, r', s)
    else
      match read_chunk (answers s) (first_input r) (user_data r)
                       (payload_complete r) s with
      | Grew => (Stuck, r, s)
      | Oob => (Overrun, r, s)
      | Ret z blocked fi ud pc s' =>
          if (z =? 0)%Z then
            let '(o, r') := deliver (mkreq fi ud true true (content_length_read r)
                                           (content_length_read r) pc) user_len in
            (o, r', s')
          else if (z <? 0)%Z then
            (if (z =? -2)%Z then Fail else if blocked then Wait else Stale,
             mkreq fi ud true false (content_length r) (content_length_read r) pc, s')
          else
            let '(o, r') := deliver (mkreq fi ud true false (content_length r)
                                           (content_length_read r + z)%Z pc) user_len in
            (o, r', s')
      end
  else if (content_length_read r <? content_length r)%Z then
    let remaining := (content_length r - content_length_read r)%Z in
    match read_plain (first_input r) (user_data r) (payload_complete r) remaining s with
    | Grew => (Stuck, r, s)
    | Oob => (Overrun, r, s)
    | Ret z _ fi ud pc s' =>
        if (z =? -2)%Z then
          (Fail, mkreq fi ud false (read_last_chunk r) (content_length r)
                       (content_length_read r) pc, s')
        else
          let got := if (z <? 0)%Z then 0%Z else Z.min z remaining in
          let '(o, r') := deliver (mkreq fi ud false (read_last_chunk r)
                                         (content_length r)
                                         (content_length_read r + got)%Z pc) user_len in
          (o, r', s')
    end
  else
    let r1 := mkreq (first_input r) (user_data r) (chunked r) (read_last_chunk r)
                    (content_length r) (content_length_read r) true in
    if has_data (user_data r)
    then let '(o, r') := deliver r1 user_len in (o, r', s)
    else (Done, r1, s).

(** A caller that asks for a body again and again, with buffers of these
    sizes; not code, the driver of the statements. *)
Fixpoint consumes (r : req) (s : sock) (lens : list N) : list cons * req * sock :=
  match lens with
  | [] => ([], r, s)
  | n :: lens' =>
      let '(o, r1, s1) := consume r s n in
      let '(os, r2, s2) := consumes r1 s1 lens' in
      (o :: os, r2, s2)
  end.

(** src/mtev_http1.c:662-685: the body reader's state when the headers were
    parsed: the bytes read beyond them, if any, in a block of just their size. *)
Definition body_start (is_chunked : bool) (cl : Z) (leftover : list N) : req :=
  mkreq (match leftover with
         | [] => None
         | _ => Some (mkb 0 leftover (len leftover))
         end) [] is_chunked false cl 0 false.

(** src/mtev_http1.c:956-996 mtev_http1_request_release, called when the
    response is complete (line 1802): the input chain is released as well. *)
Definition request_release (r : req) : req :=
  mkreq None [] false false 0 0 false.

(** * The response *)

(** A block of an output chain: an identity (its address), its bytes
    (buff + start, size of them) and allocd - start. *)
Record oblk := mko { oid : N; odata : list N; oallocd : N }.

(** src/mtev_http_private.h:53-75 HTTP_RESPONSE_BASE and
    src/mtev_http1.c:123-141, the fields the writer uses: output,
    output_chain_bytes, output_raw, output_raw_last, output_raw_offset, leader,
    output_options (chunked and close), output_started, closed, complete,
    in_error, bytes_written, output_float_trigger, ctx->max_write,
    ctx->can_still_write, ctx->conn.e != NULL, and the bytes the socket has
    taken. output_raw_chain_bytes is left out: nothing reads it. *)
Record res := mkres {
  output : list oblk;
  chain_bytes : N;
  raw : list oblk;
  raw_last : option N;
  raw_offset : N;
  leader : list oblk;
  opt_chunked : bool;
  opt_close : bool;
  started : bool;
  closed : bool;
  complete : bool;
  in_error : bool;
  bytes_written : N;
  float_trigger : N;
  max_write : Z;
  can_still_write : Z;
  conn : bool;
  next_id : N;
  sent : list N }.

(** What one eventer_write call does (an external call): takes up to n bytes,
    EAGAIN, or a socket error. *)
Inductive wanswer := Took (n : N) | Full | Broken.

(** Outcome of a call that may hit an mtevAssert or follow a stale pointer. *)
Inductive run (A : Type) := OK (a : A) | Crash.
Arguments OK {A} a.
Arguments Crash {A}.

(** Field updates of [res]. *)
Definition set_chains (r : res) (ld rw : list oblk) (rl : option N) (off : N) : res :=
  mkres (output r) (chain_bytes r) rw rl off ld (opt_chunked r) (opt_close r)
        (started r) (closed r) (complete r) (in_error r) (bytes_written r)
        (float_trigger r) (max_write r) (can_still_write r) (conn r) (next_id r) (sent r).
Definition set_output (r : res) (o : list oblk) (cb : N) (ni : N) : res :=
  mkres o cb (raw r) (raw_last r) (raw_offset r) (leader r) (opt_chunked r) (opt_close r)
        (started r) (closed r) (complete r) (in_error r) (bytes_written r)
        (float_trigger r) (max_write r) (can_still_write r) (conn r) ni (sent r).
Definition set_status (r : res) (st cl co er : bool) : res :=
  mkres (output r) (chain_bytes r) (raw r) (raw_last r) (raw_offset r) (leader r)
        (opt_chunked r) (opt_close r) st cl co er (bytes_written r)
        (float_trigger r) (max_write r) (can_still_write r) (conn r) (next_id r) (sent r).
Definition set_limits (r : res) (mw cs : Z) : res :=
  mkres (output r) (chain_bytes r) (raw r) (raw_last r) (raw_offset r) (leader r)
        (opt_chunked r) (opt_close r) (started r) (closed r) (complete r) (in_error r)
        (bytes_written r) (float_trigger r) mw cs (conn r) (next_id r) (sent r).
Definition set_sent (r : res) (off cs : N) (csw : Z) (bytes : list N) : res :=
  mkres (output r) (chain_bytes r) (raw r) (raw_last r) off (leader r)
        (opt_chunked r) (opt_close r) (started r) (closed r) (complete r) (in_error r)
        cs (float_trigger r) (max_write r) csw (conn r) (next_id r) (sent r ++ bytes).

(** src/mtev_http1.c:539-540: the assertion on the raw chain. *)
Definition raw_assert (rw : list oblk) (rl : option N) : bool :=
  match rl, rw with
  | None, [] => true
  | Some _, _ :: _ => true
  | _, _ => false
  end.

(** src/mtev_http1.c:535-547: blocks that are written out are dropped from the
    front of a chain: the leader, or output_raw itself ([is_raw]; [rw] is
    output_raw otherwise). *)
Fixpoint drop_written (chain : list oblk) (is_raw : bool) (rw : list oblk)
         (rl : option N) (off : N) : run (list oblk * option N * N) :=
  match chain with
  | [] => OK ([], rl, off)
  | b :: chain' =>
      if len (odata b) <=? off then
        let rl' := match rl with
                   | Some i => if i =? oid b then None else rl
                   | None => None
                   end in
        if raw_assert (if is_raw then chain' else rw) rl'
        then drop_written chain' is_raw rw rl' 0
        else Crash
      else OK (chain, rl, off)
  end.

(** src/mtev_http1.c:520-547: the loop from choose_bucket to a block with
    bytes to write, or the end of both chains. *)
Definition choose_bucket (r : res) : run res :=
  match drop_written (leader r) false (raw r) (raw_last r) (raw_offset r) with
  | Crash => Crash
  | OK (ld, rl, off) =>
      match ld with
      | _ :: _ => OK (set_chains r ld (raw r) rl off)
      | [] =>
          match drop_written (raw r) true (raw r) rl off with
          | Crash => Crash
          | OK (rw, rl', off') => OK (set_chains r [] rw rl' off')
          end
      end
  end.

(** The block to write from (src/mtev_http1.c:521-522). *)
Definition bucket (r : res) : option oblk :=
  match leader r with
  | b :: _ => Some b
  | [] => match raw r with b :: _ => Some b | [] => None end
  end.

(** src/mtev_http1.c:514-590 _http_perform_write: the int it returns, the new
    state and the answers left. [in_loop] is eventer_in_loop(). The writes are
    the ones of [ans]; at its end the socket is full. *)
Fixpoint perform_write (in_loop : bool) (ans : list wanswer) (r : res) (tlen : Z)
  : run (Z * res * list wanswer) :=
  if negb (conn r) || in_error r then OK ((-1)%Z, r, ans)
  else
    match choose_bucket r with
    | Crash => Crash
    | OK r1 =>
        match bucket r1 with
        | None =>
            OK (if closed r1 && (tlen <=? 0)%Z then (-1)%Z else tlen,
                set_status r1 (started r1) (closed r1) (closed r1 || complete r1)
                           (in_error r1), ans)
        | Some b =>
            if in_loop && (can_still_write r1 =? 0)%Z then OK (tlen, r1, ans)
            else
              let avail := len (odata b) - raw_offset r1 in
              let attempt := if (0 <=? max_write r1)%Z
                             then N.min avail (Z.to_N (max_write r1)) else avail in
              match ans with
              | [] => OK (tlen, r1, [])
              | Full :: ans' => OK (tlen, r1, ans')
              | Broken :: ans' =>
                  OK ((-1)%Z, set_status r1 (started r1) (closed r1) true true, ans')
              | Took n :: ans' =>
                  let k := N.min n attempt in
                  let csw := if (0 <? can_still_write r1)%Z
                             then Z.max 0 (can_still_write r1 - Z.of_N k)
                             else can_still_write r1 in
                  perform_write in_loop ans'
                    (set_sent r1 (raw_offset r1 + k) (bytes_written r1 + k) csw
                       (firstn (N.to_nat k) (skipn (N.to_nat (raw_offset r1)) (odata b))))
                    (tlen + Z.of_N k)%Z
              end
        end
    end.

(** src/mtev_http_private.h:126-127 _hexchars *)
Definition hexchar (d : N) : N := if d <? 10 then 48 + d else 87 + d.

(** src/mtev_http_private.h:228-231: the number of hexadecimal digits. *)
Fixpoint hexlen_loop (fuel : nat) (ilen : N) : nat :=
  match fuel with
  | O => O
  | S f => if ilen =? 0 then O else S (hexlen_loop f (N.shiftr ilen 4))
  end.
Definition hexlen (ilen : N) : nat :=
  match hexlen_loop 16 ilen with O => 1%nat | n => n end.

(** src/mtev_http_private.h:258-262: the digits are filled in from the right. *)
Fixpoint backfill (n : nat) (ilen : N) (acc : list N) : list N :=
  match n with
  | O => acc
  | S n' => backfill n' (N.shiftr ilen 4) (hexchar (N.land ilen 15) :: acc)
  end.

(** src/mtev_http_private.h:263-266: leading zeros are skipped. *)
Fixpoint strip_zeros (l : list N) : list N :=
  match l with
  | 48 :: l' => strip_zeros l'
  | _ => l
  end.

(** src/mtev_http_private.h:202-269 mtev_http_process_output_bchain without
    compression: MTEV_COMPRESS_NONE copies the block (mtev_compress.c:284-294).
    Sizes are ints there; see [encode_output_raw] for the limit. *)
Definition process_output (chunk : bool) (d : list N) : list N :=
  match d with
  | [] => []
  | _ => if chunk
         then strip_zeros (backfill (hexlen (len d)) (len d) [] ++ [13; 10] ++ d ++ [13; 10])
         else d
  end.

(** r->next = n with r = output_raw_last (src/mtev_http_private.h:373-380,
    src/mtev_http1.c:2081-2090): Crash when that block is not the last of the
    raw chain any more. *)
Definition link_raw (r : res) (d : list N) : run res :=
  let b := mko (next_id r) d (len d) in
  match raw_last r with
  | None => OK (mkres (output r) (chain_bytes r) [b] (Some (next_id r)) (raw_offset r)
                      (leader r) (opt_chunked r) (opt_close r) (started r) (closed r)
                      (complete r) (in_error r) (bytes_written r) (float_trigger r)
                      (max_write r) (can_still_write r) (conn r) (next_id r + 1) (sent r))
  | Some i =>
      if match rev (raw r) with b' :: _ => oid b' =? i | [] => false end
      then OK (mkres (output r) (chain_bytes r) (raw r ++ [b]) (Some (next_id r))
                     (raw_offset r) (leader r) (opt_chunked r) (opt_close r) (started r)
                     (closed r) (complete r) (in_error r) (bytes_written r)
                     (float_trigger r) (max_write r) (can_still_write r) (conn r)
                     (next_id r + 1) (sent r))
      else Crash
  end.

(** The loop over the output chain, src/mtev_http_private.h:356-395. A block
    of 2^31 bytes or more is a negative int at line 207 and the loop of line
    230 does not end: Crash. *)
Fixpoint encode_blocks (o : list oblk) (r : res) : run res :=
  match o with
  | [] => OK r
  | b :: o' =>
      if 2 ^ 31 <=? len (odata b) then Crash
      else
        match process_output (opt_chunked r) (odata b) with
        | [] => encode_blocks o' r
        | d => match link_raw r d with
               | OK r' => encode_blocks o' r'
               | Crash => Crash
               end
        end
  end.

(** src/mtev_http_private.h:346-400 mtev_http_encode_output_raw. *)
Definition encode_output_raw (r : res) : run res :=
  if raw_assert (raw r) (raw_last r) then
    match encode_blocks (output r) r with
    | OK r' => OK (set_output r' [] 0 (next_id r'))
    | Crash => Crash
    end
  else Crash.

(** src/mtev_http1.c:2052-2111 mtev_http1_response_flush. [hdr] is what
    _http_construct_leader (lines 1946-2049) renders, cut into blocks; its
    assertion at line 1956 is the Crash. The result: the boolean returned. *)
Definition response_flush (in_loop : bool) (hdr : list (list N)) (final : bool)
           (ans : list wanswer) (r : res) : run (bool * res * list wanswer) :=
  if closed r then OK (false, r, ans)
  else
    let r1 :=
      if started r then OK r
      else match leader r with
           | _ :: _ => Crash
           | [] => OK (set_status (set_chains r (map (fun d => mko 0 d (len d)) hdr)
                                              (raw r) (raw_last r) (raw_offset r))
                                  true (closed r) (complete r) (in_error r))
           end in
    match r1 with
    | Crash => Crash
    | OK r1 =>
        match encode_output_raw r1 with
        | Crash => Crash
        | OK r2 =>
            let r3 :=
              if final then
                let r2' := set_status r2 (started r2) true (complete r2) (in_error r2) in
                if opt_chunked r then link_raw r2' [48; 13; 10; 13; 10] else OK r2'
              else OK r2 in
            match r3 with
            | Crash => Crash
            | OK r3 =>
                match perform_write in_loop ans r3 0 with
                | Crash => Crash
                | OK (rv, r4, ans') => OK ((0 <=? rv)%Z && conn r4, r4, ans')
                end
            end
        end
    end.

(** src/mtev_http.c:305-320: the bytes are spread over blocks of the default
    size; [o] is the last block. *)
Fixpoint spread (fuel : nat) (o : oblk) (ni : N) (d : list N) : list oblk * N :=
  match d, fuel with
  | [], _ => ([o], ni)
  | _, O => ([o], ni)
  | _, S f =>
      if oallocd o <=? len (odata o) then
        let '(bs, n') := spread f (mko ni [] DEFAULT_BCHAINSIZE) (ni + 1) d in
        (o :: bs, n')
      else
        let k := N.to_nat (N.min (len d) (oallocd o - len (odata o))) in
        spread f (mko (oid o) (odata o ++ firstn k d) (oallocd o)) ni (skipn k d)
  end.

(** src/mtev_http.c:168, 322, 353: whether the buffered bytes exceed the limit. *)
Definition over_trigger (r : res) : bool :=
  (if float_trigger r =? 0 then DEFAULT_BCHAINSIZE else float_trigger r) <? chain_bytes r.

(** src/mtev_http.c:295-298: appending is refused. *)
Definition refused (r : res) : bool :=
  in_error r || closed r || (started r && negb (opt_close r || opt_chunked r)).

(** The end of both append functions: flush when the limit is exceeded. *)
Definition auto_flush (in_loop : bool) (hdr : list (list N)) (ans : list wanswer)
           (r : res) : run (bool * res * list wanswer) :=
  if over_trigger r then
    match response_flush in_loop hdr false ans r with
    | OK (_, r', ans') => OK (true, r', ans')
    | Crash => Crash
    end
  else OK (true, r, ans).

(** src/mtev_http.c:287-328 mtev_http_response_append. *)
Definition response_append (in_loop : bool) (hdr : list (list N)) (d : list N)
           (ans : list wanswer) (r : res) : run (bool * res * list wanswer) :=
  if refused r then OK (false, r, ans)
  else
    let '(front, last, ni) :=
      match rev (output r) with
      | o :: f => (rev f, o, next_id r)
      | [] => ([], mko (next_id r) [] DEFAULT_BCHAINSIZE, next_id r + 1)
      end in
    let '(bs, ni') := spread (length d + length d) last ni d in
    auto_flush in_loop hdr ans (set_output r (front ++ bs) (chain_bytes r + len d) ni').

(** src/mtev_http.c:329-359 mtev_http_response_append_bchain for a block that
    starts at 0 (bchain_from_data, bchain_mmap): line 346 marks the block
    before it as full. *)
Definition response_append_bchain (in_loop : bool) (hdr : list (list N)) (d : list N)
           (alloc : N) (ans : list wanswer) (r : res) : run (bool * res * list wanswer) :=
  if refused r then OK (false, r, ans)
  else
    let front :=
      match rev (output r) with
      | o :: f => rev f ++ [mko (oid o) (odata o) (len (odata o))]
      | [] => []
      end in
    auto_flush in_loop hdr ans
      (set_output r (front ++ [mko (next_id r) d alloc]) (chain_bytes r + len d) (next_id r + 1)).

(** src/mtev_http1.c:918-931: the interim response to an Expect header, written
    without limit; a leftover stays in the leader. *)
Definition send_continue (in_loop : bool) (ans : list wanswer) (r : res)
  : run (res * list wanswer) :=
  match leader r with
  | _ :: _ => Crash
  | [] =>
      let text := [72;84;84;80;47;49;46;49;32;49;48;48;32;67;111;110;116;105;110;117;101;13;10;13;10] in
      let r1 := set_limits (set_chains r [mko 0 text (len text)] (raw r) (raw_last r) (raw_offset r))
                           (max_write r) (-1) in
      match perform_write in_loop ans r1 0 with
      | Crash => Crash
      | OK (_, r2, ans') => OK (set_limits r2 (max_write r2) (max_write r2), ans')
      end
  end.

(** What happens to a response: calls of the application and of the event loop
    (src/mtev_http1.c:1668 and 1775: the write limit is renewed and the chains
    are written). *)
Inductive op :=
| Append (d : list N)
| AppendChain (d : list N) (alloc : N)
| Flush (final : bool)
| Drive
| MaxWrite (n : Z)
| Continue.

(** One operation; [hdr] is the rendering of the headers. *)
Definition step (hdr : list (list N)) (o : op) (in_loop : bool) (ans : list wanswer)
           (r : res) : run (bool * res * list wanswer) :=
  match o with
  | Append d => response_append in_loop hdr d ans r
  | AppendChain d alloc => response_append_bchain in_loop hdr d alloc ans r
  | Flush final => response_flush in_loop hdr final ans r
  | Drive =>
      match perform_write in_loop ans (set_limits r (max_write r) (max_write r)) 0 with
      | OK (rv, r', ans') => OK ((0 <=? rv)%Z, r', ans')
      | Crash => Crash
      end
  | MaxWrite n => OK (true, set_limits r n (can_still_write r), ans)
  | Continue =>
      match send_continue in_loop ans r with
      | OK (r', ans') => OK (true, r', ans')
      | Crash => Crash
      end
  end.

(** A sequence of operations, each with the answers the socket gives during it;
    the booleans are the results of the calls. *)
Fixpoint steps (hdr : list (list N)) (os : list (op * bool * list wanswer)) (r : res)
  : run (list bool * res) :=
  match os with
  | [] => OK ([], r)
  | (o, il, ans) :: os' =>
      match step hdr o il ans r with
      | Crash => Crash
      | OK (b, r1, _) =>
          match steps hdr os' r1 with
          | Crash => Crash
          | OK (bs, r2) => OK (b :: bs, r2)
          end
      end
  end.

(** src/mtev_http1.c:1831-1867: the state a session starts a response with;
    the options are fixed before output starts (lines 1906-1942). *)
Definition fresh (chunk close : bool) (trigger : N) : res :=
  mkres [] 0 [] None 0 [] chunk close false false false false 0 trigger (2 ^ 19) (-1) true 1 [].
