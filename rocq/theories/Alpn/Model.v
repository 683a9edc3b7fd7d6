(** The choice of a protocol in a TLS handshake (ALPN and NPN), as written in
    /repo/src/eventer/eventer_SSL_fd_opset.c and in the macro
    EVENTER_SSL_ALPN_MATCHER of /repo/src/eventer/eventer_SSL_fd_opset.h.

    Simplifications.  Strings and the protocol list of the client are lists of
    bytes; a pointer into that list is a position in it.  The hash tables are
    lists of pairs, the last one registered first.  The calls to OpenSSL that
    put the callbacks in place are left out: they are taken to be there whenever
    npn is set, which is what they test first.  A function that answers 1 is
    taken to set *out and *outlen itself. *)
From Coq Require Import List NArith ZArith Arith Bool.
Import ListNotations.

(** An answer of a selection function: its value, and *out, as a position, with
    *outlen, if it set them (eventer_SSL_fd_opset.h:106-109). *)
Definition answer : Type := (Z * option (nat * nat))%type.

(** eventer_SSL_alpn_func_t (eventer_SSL_fd_opset.h:106-109). *)
Definition func : Type := list N -> answer.

(** Byte strings compared, by memcmp or as keys of a table
    (eventer_SSL_fd_opset.h:118, eventer_SSL_fd_opset.c:1168). *)
Fixpoint same (a b : list N) : bool :=
  match a, b with
  | [], [] => true
  | x :: a', y :: b' => (x =? y)%N && same a' b'
  | _, _ => false
  end.

(** in[i] as a number of bytes (eventer_SSL_fd_opset.c:1167). *)
Definition at_ (inn : list N) (i : nat) : nat := N.to_nat (nth i inn 0%N).

(** The loop of EVENTER_SSL_ALPN_MATCHER from position [i]; a step goes on by at
    least one byte, so that a fuel above the length never runs out
    (eventer_SSL_fd_opset.h:117-123). *)
Fixpoint match_from (fuel : nat) (key inn : list N) (i : nat) : answer :=
  match fuel with
  | O => (0%Z, None)
  | S k =>
      let keylen := (length key mod 256)%nat in
      if (i + keylen <? length inn)%nat then
        if (at_ inn i =? keylen)%nat &&
           negb (same (firstn keylen (skipn 1 inn)) (firstn keylen key))
        then (1%Z, Some (i + 1, at_ inn i)%nat)
        else match_from k key inn (i + (at_ inn i + 1))
      else (0%Z, None)
  end.

(** The function EVENTER_SSL_ALPN_MATCHER makes for [key]
    (eventer_SSL_fd_opset.h:111-125). *)
Definition matcher (key : list N) : func :=
  fun inn => match_from (S (length inn)) key inn 0.

(** eventer_alpn_select_always (eventer_SSL_fd_opset.c:1183-1190). *)
Definition always : func := fun inn => (1%Z, Some (1%nat, at_ inn 0)).

(** A table of functions by name (eventer_SSL_fd_opset.c:147, 169). *)
Definition table : Type := list (list N * func).

(** mtev_hash_retrieve (eventer_SSL_fd_opset.c:1168-1169). *)
Fixpoint retrieve (t : table) (name : list N) : option func :=
  match t with
  | [] => None
  | (n, f) :: t' => if same n name then Some f else retrieve t' name
  end.

(** The table of the context (empty if there is none), the one of the process
    and npn (eventer_SSL_fd_opset.c:147, 168-169). *)
Record ctx := Ctx { own : table; shared : table; npn : option (list N) }.

(** The search for a name in both tables
    (eventer_SSL_fd_opset.c:1168-1169, 1226-1227). *)
Definition lookup (c : ctx) (name : list N) : option func :=
  match retrieve (own c) name with
  | Some f => Some f
  | None => retrieve (shared c) name
  end.

(** eventer_ssl_alpn_register (eventer_SSL_fd_opset.c:1192-1196). *)
Definition register (c : ctx) (name : list N) (f : option func) : ctx :=
  let g := match f with Some g => g | None => always end in
  Ctx (own c) ((name, g) :: shared c) (npn c).

(** eventer_ssl_ctx_alpn_register (eventer_SSL_fd_opset.c:1198-1210). *)
Definition ctx_register (c : ctx) (name : list N) (f : option func) : ctx :=
  let g := match f with Some g => g | None => always end in
  Ctx ((name, g) :: own c) (shared c) (npn c).

(** strtok_r with a comma, [cur] being the part read so far
    (eventer_SSL_fd_opset.c:1222-1223). *)
Fixpoint toks (s cur : list N) : list (list N) :=
  match s with
  | [] => match cur with [] => [] | _ => [cur] end
  | x :: s' =>
      if (x =? 44)%N then
        match cur with [] => toks s' [] | _ => cur :: toks s' [] end
      else toks s' (cur ++ [x])
  end.

(** The loop of eventer_ssl_alpn_advertise; [buf] is newnpn up to off
    (eventer_SSL_fd_opset.c:1222-1236). *)
Fixpoint adv (c : ctx) (parts : list (list N)) (buf : list N) : list N :=
  match parts with
  | [] => buf
  | p :: ps =>
      match lookup c p with
      | Some _ =>
          if (length buf + length p + 1 <? 255)%nat
          then adv c ps (buf ++ N.of_nat (length p) :: p)
          else adv c ps buf
      | None => adv c ps buf
      end
  end.

(** eventer_ssl_alpn_advertise (eventer_SSL_fd_opset.c:1212-1255). *)
Definition advertise (c : ctx) (s : option (list N)) : ctx :=
  let buf := match s with Some s => adv c (toks s []) [] | None => [] end in
  Ctx (own c) (shared c) (match buf with [] => None | _ => Some buf end).

(** What a callback answers: SSL_TLSEXT_ERR_NOACK, or SSL_TLSEXT_ERR_OK with
    *out and *outlen (eventer_SSL_fd_opset.c:1163, 1175-1179). *)
Inductive res := NoAck | Ok (o : option (nat * nat)).

(** The loop of alpn_select_proto_cb from position [i], [f] being the function
    last found; a step goes on by at least one byte
    (eventer_SSL_fd_opset.c:1165-1179). *)
Fixpoint sel (fuel : nat) (c : ctx) (f : option func) (inn : list N) (i : nat)
  : res :=
  match fuel with
  | O => NoAck
  | S k =>
      if (i <? length inn)%nat then
        let f' := match lookup c (firstn (at_ inn i) (skipn (i + 1) inn)) with
                  | Some g => Some g
                  | None => f
                  end in
        match f' with
        | Some g =>
            let (rv, o) := g inn in
            if (rv <? 0)%Z then NoAck
            else if (rv =? 1)%Z then Ok o
            else sel k c f' inn (i + (at_ inn i + 1))
        | None => sel k c f' inn (i + (at_ inn i + 1))
        end
      else NoAck
  end.

(** alpn_select_proto_cb (eventer_SSL_fd_opset.c:1156-1180). *)
Definition select (c : ctx) (inn : list N) : res :=
  match npn c with
  | None => NoAck
  | Some _ => sel (S (length inn)) c None inn 0
  end.

(** next_proto_cb: the bytes offered (eventer_SSL_fd_opset.c:1140-1151). *)
Definition next_proto (c : ctx) : option (list N) :=
  match npn c with
  | None => None
  | Some b => Some (firstn (1 + at_ b 0) b)
  end.
