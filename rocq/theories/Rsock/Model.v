(** Reverse sockets: many connections carried over one, as written in
    /repo/src/mtev_reverse_socket.cpp.

    One endpoint of a reverse socket is modelled: the reader and the writer of
    frames on the shared connection, the table of channels, the handler that
    moves bytes between a channel and its local connection, and the allocation
    of a channel for a new connection.

    Simplifications.  One thread at a time (the locks are not modelled, and the
    AGING value of pair[0], which is seen only between two locked regions of one
    shutdown, is not either).  Local connections are numbered in the order they
    are opened, so that two uses of one descriptor are told apart.  The answers
    of eventer_read and eventer_write are parameters.  Counters, log messages,
    wakeups of the other event, and the registration by name of the reverse
    socket are left out, and so is what happens after the shared connection
    fails: the endpoint is then dead. *)
From Coq Require Import List NArith Arith Bool Lia.
Import ListNotations.
Local Open Scope N_scope.

(** One answer of eventer_read: bytes, of which the read takes as many as were
    asked for, EAGAIN, or end of file or an error
    (mtev_reverse_socket.cpp:769-783, 835-849, 652-668).  [ok] says whether
    mtev_support_connection would give a descriptor at that moment
    (mtev_reverse_socket.cpp:714-745). *)
Inductive rans := RGot (l : list N) (ok : bool) | RAgain | REnd.

(** One answer of eventer_write: at most [k] bytes taken, EAGAIN, or an error
    (mtev_reverse_socket.cpp:928-935, 939-950, 618-637). *)
Inductive wans := WTake (k : N) | WAgain | WErr.

(** How a channel ends: label snip, label shutdown, which tells the peer
    (mtev_reverse_socket.cpp:552-575), or with the shared connection (501-503). *)
Inductive how := Quiet | Loud | Failed.

(** A whole frame: the command bit, the channel and the payload
    (mtev_reverse_socket.cpp:95-103). *)
Record frame := Fr { fcmd : bool; fch : N; fdat : list N }.

(** What can be seen of an endpoint, in order: bytes read from and written to
    the shared connection (mtev_reverse_socket.cpp:769, 835, 928, 939), a whole
    frame having arrived (862), a connection opened by
    mtev_reverse_socket_connect (1242) or for a CONNECT (879-891), bytes written
    to and read from a local connection (618, 652), its end seen by a read or a
    write (625, 654, 662), its closing (562-571), and a failure of the shared
    connection (775, 844, 934, 945). *)
Inductive ev :=
| ERx (l : list N)
| ETx (l : list N)
| EFrame (f : frame) (ok : bool)
| ECon (n c : N)
| EAcc (n c : N)
| EDeliv (n : N) (l : list N)
| ERead (n : N) (l : list N)
| EEnd (n : N)
| EClose (n : N) (h : how)
| EHup.

(** An entry of rc->data.outgoing: channel_id with the command bit, buff and
    offset (mtev_reverse_socket.cpp:95-103). *)
Record oframe := OF { oid : N; odat : list N; ooff : nat }.

(** An entry of channel->incoming: command, buff and offset
    (mtev_reverse_socket.cpp:95-103). *)
Record iframe := IF { xcmd : bool; xdat : list N; xoff : nat }.

(** channel_t: the local connection, none when pair[0] is AVAILABLE, and the
    list incoming (mtev_reverse_socket.cpp:105-115). *)
Record chan := Ch { own : option N; inq : list iframe }.

(** reverse_socket_data_t: frame_hdr and frame_hdr_read, incoming_inflight,
    channels, outgoing, frame_hdr_written, last_allocated_channel
    (mtev_reverse_socket.cpp:117-141), then the number of the next local
    connection, whether the endpoint was shut down, and what was seen so far,
    newest first. *)
Record ep := Ep {
  hdr : list N;
  icmd : bool; ich : N; ilen : N; ibuf : list N;
  chans : N -> chan;
  outq : list oframe; hw : nat;
  last : N; next : N; dead : bool; log : list ev }.

(** MAX_CHANNELS (mtev_reverse_socket.cpp:67). *)
Definition max_channels : N := 512.
(** MAX_FRAME_LEN (mtev_reverse_socket.cpp:68). *)
Definition max_frame : N := 65530.

(** "CONNECT" (mtev_reverse_socket.cpp:872, 1259). *)
Definition s_connect : list N := [67;79;78;78;69;67;84].
(** "RESET" (mtev_reverse_socket.cpp:587, 899, 905). *)
Definition s_reset : list N := [82;69;83;69;84].
(** "CLOSE" (mtev_reverse_socket.cpp:593). *)
Definition s_close : list N := [67;76;79;83;69].
(** "SHUTDOWN" (mtev_reverse_socket.cpp:556, 599). *)
Definition s_shutdown : list N := [83;72;85;84;68;79;87;78].

(** Byte strings compared: the length and strncmp of IFCMD
    (mtev_reverse_socket.cpp:34). *)
Fixpoint same (a b : list N) : bool :=
  match a, b with
  | [], [] => true
  | x :: a', y :: b' => (x =? y) && same a' b'
  | _, _ => false
  end.

(** IFCMD (mtev_reverse_socket.cpp:34). *)
Definition ifcmd (cmd : bool) (dat s : list N) : bool := cmd && same dat s.

(** A new endpoint: reverse_socket_t{} with every pair set to AVAILABLE
    (mtev_reverse_socket.cpp:419-421, 117-141). *)
Definition init : ep :=
  Ep [] false 0 0 [] (fun _ => Ch None []) [] 0 0 0 false [].

(** Note something seen (no counterpart in /repo). *)
Definition seen (e : ev) (s : ep) : ep :=
  Ep (hdr s) (icmd s) (ich s) (ilen s) (ibuf s) (chans s) (outq s) (hw s)
     (last s) (next s) (dead s) (e :: log s).

(** Assignment to rc->data.channels[c] (mtev_reverse_socket.cpp:137). *)
Definition set_chan (s : ep) (c : N) (x : chan) : ep :=
  Ep (hdr s) (icmd s) (ich s) (ilen s) (ibuf s)
     (fun d => if d =? c then x else chans s d) (outq s) (hw s)
     (last s) (next s) (dead s) (log s).

(** append_in: the frame goes to the end of the list of its channel
    (mtev_reverse_socket.cpp:194-232). *)
Definition append_in (s : ep) (c : N) (cmd : bool) (dat : list N) : ep :=
  set_chan s c (Ch (own (chans s c)) (inq (chans s c) ++ [IF cmd dat 0])).

(** append_out and append_out_no_lock: the frame goes to the end of the list of
    frames to write (mtev_reverse_socket.cpp:243-308). *)
Definition append_out (s : ep) (id : N) (dat : list N) : ep :=
  Ep (hdr s) (icmd s) (ich s) (ilen s) (ibuf s) (chans s)
     (outq s ++ [OF id dat 0]) (hw s) (last s) (next s) (dead s) (log s).

(** command_out (mtev_reverse_socket.cpp:310-319). *)
Definition command_out (s : ep) (c : N) (cmd : list N) : ep :=
  append_out s (N.lor c 32768) cmd.

(** Label snip and mtev_reverse_socket_channel_shutdown: the local connection
    is closed, what was still to be written to it is dropped, and the channel is
    AVAILABLE (mtev_reverse_socket.cpp:557-574, 423-464). *)
Definition snip (s : ep) (c n : N) (h : how) : ep :=
  set_chan (seen (EClose n h) s) c (Ch None []).

(** Label shutdown: SHUTDOWN is sent, then as for snip
    (mtev_reverse_socket.cpp:552-575). *)
Definition shutdown (s : ep) (c n : N) : ep :=
  snip (command_out s c s_shutdown) c n Loud.

(** The loop of mtev_reverse_socket_shutdown over the channels: each one in use
    is closed (mtev_reverse_socket.cpp:501-503). *)
Fixpoint close_all (cs : list N) (s : ep) : ep :=
  match cs with
  | [] => s
  | c :: cs' =>
      close_all cs' (match own (chans s c) with
                     | Some n => snip s c n Failed
                     | None => s
                     end)
  end.

(** The numbers of the channels (mtev_reverse_socket.cpp:501). *)
Definition channel_list : list N := map N.of_nat (seq 0 512).

(** The frames to write are dropped, and the endpoint is of no more use
    (mtev_reverse_socket.cpp:472-499). *)
Definition mark_dead (s : ep) : ep :=
  Ep (hdr s) (icmd s) (ich s) (ilen s) (ibuf s) (chans s) [] (hw s)
     (last s) (next s) true (log s).

(** mtev_reverse_socket_shutdown: the frames to write are dropped and every
    channel is closed (mtev_reverse_socket.cpp:466-511, 761-764). *)
Definition die (s : ep) : ep := mark_dead (close_all channel_list s).

(** memset of incoming_inflight and frame_hdr_read = 0
    (mtev_reverse_socket.cpp:889-890, 908-909, 217, 914). *)
Definition fresh (s : ep) : ep :=
  Ep [] false 0 0 [] (chans s) (outq s) (hw s) (last s) (next s) (dead s)
     (log s).

(** The CONNECT case: a local connection is opened on the channel
    (mtev_reverse_socket.cpp:879-891). *)
Definition accept (s : ep) (c : N) : ep :=
  let s1 := seen (EAcc (next s) c)
                 (set_chan s c (Ch (Some (next s)) (inq (chans s c)))) in
  Ep (hdr s1) (icmd s1) (ich s1) (ilen s1) (ibuf s1) (chans s1) (outq s1)
     (hw s1) (last s1) (next s1 + 1) (dead s1) (log s1).

(** What one read led to: the frame is not whole yet, a frame was dealt with
    and counts against reads_remaining or not, or the header is refused
    (mtev_reverse_socket.cpp:767-915). *)
Inductive fed := More | Counted | Free | Refused.

(** A whole inbound frame (mtev_reverse_socket.cpp:862-915). *)
Definition dispatch (s : ep) (ok : bool) : ep * fed :=
  let c := ich s in
  let cmd := icmd s in
  let dat := ibuf s in
  let s0 := fresh (seen (EFrame (Fr cmd c dat) ok) s) in
  match own (chans s0 c) with
  | None =>
      if ifcmd cmd dat s_connect && ok then (accept s0 c, Free)
      else if ifcmd cmd dat s_reset then (s0, Free)
      else (command_out s0 c s_reset, Free)
  | Some _ => (append_in s0 c cmd dat, Counted)
  end.

(** frame_hdr with some more bytes (mtev_reverse_socket.cpp:769, 782). *)
Definition set_hdr (s : ep) (h : list N) : ep :=
  Ep h (icmd s) (ich s) (ilen s) (ibuf s) (chans s) (outq s) (hw s) (last s)
     (next s) (dead s) (log s).

(** Assignments to incoming_inflight (mtev_reverse_socket.cpp:792-802, 836). *)
Definition set_infl (s : ep) (cmd : bool) (c len : N) (b : list N) : ep :=
  Ep (hdr s) cmd c len b (chans s) (outq s) (hw s) (last s) (next s) (dead s)
     (log s).

(** ntohs of the first two bytes of frame_hdr
    (mtev_reverse_socket.cpp:790, 792). *)
Definition get16 (h : list N) : N := nth 0 h 0 * 256 + nth 1 h 0.

(** ntohl of the last four bytes of frame_hdr
    (mtev_reverse_socket.cpp:791, 802). *)
Definition get32 (h : list N) : N :=
  ((nth 2 h 0 * 256 + nth 3 h 0) * 256 + nth 4 h 0) * 256 + nth 5 h 0.

(** How many bytes are asked for: the rest of the header or the rest of the
    payload (mtev_reverse_socket.cpp:769, 837). *)
Definition want (s : ep) : nat :=
  if (length (hdr s) <? 6)%nat then (6 - length (hdr s))%nat
  else (N.to_nat (ilen s) - length (ibuf s))%nat.

(** What is done with bytes read.  The header is looked at when it is whole
    (the code looks at it again while buff_len is 0, which is only until the
    frame is dealt with) (mtev_reverse_socket.cpp:767-915). *)
Definition feed (s : ep) (l : list N) (ok : bool) : ep * fed :=
  if (length (hdr s) <? 6)%nat then
    let h := hdr s ++ l in
    let s1 := set_hdr s h in
    if (length h <? 6)%nat then (s1, More)
    else
      let id := get16 h in
      let cmd := negb (N.land id 32768 =? 0) in
      let c := if cmd then N.land id 32767 else id in
      let len := get32 h in
      let s2 := set_infl s1 cmd c len [] in
      if max_frame <? len then (s2, Refused)
      else if max_channels <=? c then (s2, Refused)
      else if len =? 0 then dispatch s2 ok
      else (s2, More)
  else
    let b := ibuf s ++ l in
    let s1 := set_infl s (icmd s) (ich s) (ilen s) b in
    if N.of_nat (length b) <? ilen s then (s1, More) else dispatch s1 ok.

(** The reading half of mtev_reverse_socket_handler; [budget] is reads_remaining
    (mtev_reverse_socket.cpp:767-915). *)
Fixpoint rloop (rs : list rans) (budget : nat) (s : ep) : ep :=
  match rs with
  | [] => s
  | RAgain :: _ => s
  | REnd :: _ => die (seen EHup s)
  | RGot l ok :: rs' =>
      match firstn (want s) l with
      | [] => die (seen EHup s)
      | x :: xs =>
          match feed (seen (ERx (x :: xs)) s) (x :: xs) ok with
          | (s1, More) => rloop rs' budget s1
          | (s1, Free) => rloop rs' budget s1
          | (s1, Refused) => die s1
          | (s1, Counted) =>
              match budget with
              | S (S b) => rloop rs' (S b) s1
              | _ => s1
              end
          end
      end
  end.

(** frame_hdr_out (mtev_reverse_socket.cpp:924-927). *)
Definition hdr_out (f : oframe) : list N :=
  let len := N.of_nat (length (odat f)) in
  [ (oid f / 256) mod 256; oid f mod 256;
    (len / 16777216) mod 256; (len / 65536) mod 256; (len / 256) mod 256;
    len mod 256 ].

(** Assignments to outgoing and frame_hdr_written
    (mtev_reverse_socket.cpp:935, 950, 960-961). *)
Definition set_out (s : ep) (q : list oframe) (w : nat) : ep :=
  Ep (hdr s) (icmd s) (ich s) (ilen s) (ibuf s) (chans s) q w (last s) (next s)
     (dead s) (log s).

(** The writing half of mtev_reverse_socket_handler; [budget] is the number of
    frames that may still be finished (mtev_reverse_socket.cpp:917-963, pop_out
    234-241). *)
Fixpoint wloop (ws : list wans) (budget : nat) (s : ep) : ep :=
  match outq s with
  | [] => s
  | f :: q =>
      match ws with
      | [] => s
      | WAgain :: _ => s
      | WErr :: _ => die (seen EHup s)
      | WTake k :: ws' =>
          if (hw s <? 6)%nat then
            match firstn (N.to_nat k) (skipn (hw s) (hdr_out f)) with
            | [] => die (seen EHup s)
            | x :: xs =>
                let w := (hw s + length (x :: xs))%nat in
                let s1 := seen (ETx (x :: xs)) s in
                if ((w =? 6) && (length (odat f) <=? ooff f))%nat then
                  match budget with
                  | S (S b) => wloop ws' (S b) (set_out s1 q 0)
                  | _ => set_out s1 q 0
                  end
                else wloop ws' budget (set_out s1 (f :: q) w)
            end
          else
            match firstn (N.to_nat k) (skipn (ooff f) (odat f)) with
            | [] => die (seen EHup s)
            | x :: xs =>
                let o := (ooff f + length (x :: xs))%nat in
                let s1 := seen (ETx (x :: xs)) s in
                if (length (odat f) <=? o)%nat then
                  match budget with
                  | S (S b) => wloop ws' (S b) (set_out s1 q 0)
                  | _ => set_out s1 q 0
                  end
                else
                  wloop ws' budget
                        (set_out s1 (OF (oid f) (odat f) o :: q) (hw s))
            end
      end
  end.

(** mtev_reverse_socket_handler; --writes_remaining is tested before each frame,
    so 499 frames may be written (mtev_reverse_socket.cpp:747-985). *)
Definition main (s : ep) (rs : list rans) (ws : list wans) : ep :=
  if dead s then s
  else
    let s1 := rloop rs 500 s in
    if dead s1 then s1 else wloop ws 499 s1.

(** How the loop over channel->incoming ended: stopped or empty, with the
    answers left and whether something was written, or the connection closed
    (mtev_reverse_socket.cpp:583-649). *)
Inductive cw := CGo (ws : list wans) (wrote : bool) | CGone.

(** The loop over channel->incoming of the channel handler
    (mtev_reverse_socket.cpp:583-649). *)
Fixpoint cwrite (ws : list wans) (c n : N) (wrote : bool) (s : ep) : ep * cw :=
  match inq (chans s c) with
  | [] => (s, CGo ws wrote)
  | f :: q =>
      if xcmd f then
        if ifcmd (xcmd f) (xdat f) s_reset then (snip s c n Quiet, CGone)
        else if ifcmd (xcmd f) (xdat f) s_close then (snip s c n Quiet, CGone)
        else if ifcmd (xcmd f) (xdat f) s_shutdown then (shutdown s c n, CGone)
        else (shutdown s c n, CGone)
      else
        match xdat f with
        | [] => (shutdown s c n, CGone)
        | _ =>
            match ws with
            | [] => (s, CGo [] wrote)
            | WAgain :: ws' => (s, CGo ws' wrote)
            | WErr :: _ => (shutdown (seen (EEnd n) s) c n, CGone)
            | WTake k :: ws' =>
                match firstn (N.to_nat k) (skipn (xoff f) (xdat f)) with
                | [] => (shutdown (seen (EEnd n) s) c n, CGone)
                | x :: xs =>
                    let o := (xoff f + length (x :: xs))%nat in
                    let s1 := seen (EDeliv n (x :: xs)) s in
                    if (o =? length (xdat f))%nat then
                      cwrite ws' c n true (set_chan s1 c (Ch (own (chans s c)) q))
                    else
                      cwrite ws' c n true
                        (set_chan s1 c
                           (Ch (own (chans s c))
                               (IF (xcmd f) (xdat f) o :: q)))
                end
            end
        end
  end.

(** The outer loop of the channel handler: write, then read once, until neither
    did anything.  Each round but the last uses up an answer, so [fuel] above
    the number of answers never runs out (mtev_reverse_socket.cpp:577-685). *)
Fixpoint cloop (fuel : nat) (ws : list wans) (rs : list rans) (c n : N)
         (s : ep) : ep :=
  match fuel with
  | O => s
  | S fuel' =>
      match cwrite ws c n false s with
      | (s1, CGone) => s1
      | (s1, CGo ws' wrote) =>
          match rs with
          | [] => if wrote then cloop fuel' ws' [] c n s1 else s1
          | RAgain :: rs' => if wrote then cloop fuel' ws' rs' c n s1 else s1
          | REnd :: _ => shutdown (seen (EEnd n) s1) c n
          | RGot l _ :: rs' =>
              match firstn (N.to_nat max_frame) l with
              | [] => shutdown (seen (EEnd n) s1) c n
              | x :: xs =>
                  cloop fuel' ws' rs' c n
                    (append_out (seen (ERead n (x :: xs)) s1) c (x :: xs))
              end
          end
      end
  end.

(** mtev_reverse_socket_channel_handler called for the local connection of
    channel [c] (mtev_reverse_socket.cpp:516-688). *)
Definition chanh (s : ep) (c : N) (ws : list wans) (rs : list rans) : ep :=
  match own (chans s c) with
  | None => s
  | Some n => cloop (S (length ws + length rs)) ws rs c n s
  end.

(** The search for a channel: [k] more to look at, from number [i]
    (mtev_reverse_socket.cpp:1251-1254). *)
Fixpoint find_free (s : ep) (k : nat) (i : N) : option N :=
  match k with
  | O => None
  | S k' =>
      let c := (last s + i + 1) mod max_channels in
      match own (chans s c) with
      | None => Some c
      | Some _ => find_free s k' (i + 1)
      end
  end.

(** mtev_reverse_socket_connect; [ok] is false when no pair of descriptors can
    be made (mtev_reverse_socket.cpp:1242-1311). *)
Definition connect (s : ep) (ok : bool) : ep * option N :=
  if dead s then (s, None)
  else
    match find_free s 512 0 with
    | None => (s, None)
    | Some c =>
        let s1 := Ep (hdr s) (icmd s) (ich s) (ilen s) (ibuf s) (chans s)
                     (outq s) (hw s) c (next s) (dead s) (log s) in
        if ok then
          let n := next s in
          let s2 := seen (ECon n c)
                      (set_chan s1 c (Ch (Some n) (inq (chans s1 c)))) in
          let s3 := Ep (hdr s2) (icmd s2) (ich s2) (ilen s2) (ibuf s2)
                       (chans s2) (outq s2) (hw s2) (last s2) (n + 1) (dead s2)
                       (log s2) in
          (append_out s3 (N.lor c 32768) s_connect, Some n)
        else (s1, None)
    end.

(** One call: the handler of the shared connection
    (mtev_reverse_socket.cpp:747-985), the handler of a channel (516-688), or
    mtev_reverse_socket_connect (1242-1311). *)
Inductive op :=
| OMain (rs : list rans) (ws : list wans)
| OChan (c : N) (ws : list wans) (rs : list rans)
| OConn (ok : bool).

(** One call made (mtev_reverse_socket.cpp:516-985, 1242-1311). *)
Definition step (s : ep) (o : op) : ep :=
  match o with
  | OMain rs ws => main s rs ws
  | OChan c ws rs => chanh s c ws rs
  | OConn ok => fst (connect s ok)
  end.

(** Calls made one after the other (no counterpart in /repo). *)
Fixpoint run (os : list op) (s : ep) : ep :=
  match os with
  | [] => s
  | o :: os' => run os' (step s o)
  end.
