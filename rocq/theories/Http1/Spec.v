(** What the HTTP/1 body reader and writer are meant to do, without reference
    to their code. *)
From Coq Require Import NArith ZArith List Bool.
From Verif Require Import Http1.Model.
Import ListNotations.
Local Open Scope N_scope.

(** A hexadecimal digit and its value (RFC 7230 4.1, RFC 5234 B.1). *)
Definition hexdigit (c v : N) : Prop :=
  (48 <= c <= 57 /\ c = 48 + v) \/ (97 <= c <= 102 /\ c = 87 + v)
  \/ (65 <= c <= 70 /\ c = 55 + v).

(** A hexadecimal numeral and its value. *)
Inductive hexnum : list N -> N -> Prop :=
| hex_one : forall c v, hexdigit c v -> hexnum [c] v
| hex_more : forall s n c v,
    hexnum s n -> hexdigit c v -> hexnum (s ++ [c]) (16 * n + v).

Definition crlf : list N := [13; 10].

(** A chunked body (RFC 7230 4.1) without chunk extensions and trailers, whose
    size lines have at most 18 digits and whose chunks are below 2 GB: the data
    of its chunks and its bytes. *)
Inductive chunk_wire : list (list N) -> list N -> Prop :=
| cw_last : forall z, hexnum z 0 -> (length z <= 18)%nat ->
    chunk_wire [] (z ++ crlf ++ crlf)
| cw_chunk : forall s d ds w,
    hexnum s (N.of_nat (length d)) -> d <> [] -> (length s <= 18)%nat ->
    N.of_nat (length d) < 2 ^ 31 -> chunk_wire ds w ->
    chunk_wire (d :: ds) (s ++ crlf ++ d ++ crlf ++ w).

(** Chunks without the last one. *)
Inductive chunk_seq : list (list N) -> list N -> Prop :=
| cs_nil : chunk_seq [] []
| cs_chunk : forall s d ds w,
    hexnum s (N.of_nat (length d)) -> d <> [] -> (length s <= 18)%nat ->
    N.of_nat (length d) < 2 ^ 31 -> chunk_seq ds w ->
    chunk_seq (d :: ds) (s ++ crlf ++ d ++ crlf ++ w).

(** What goes over the wire for a response: the headers, the body in pieces
    [ds] (as chunks or as they are), and the last chunk once it is closed. *)
Definition response_wire (chunk is_closed : bool) (hdr : list (list N))
           (ds : list (list N)) (wire : list N) : Prop :=
  if chunk then
    exists w, chunk_seq ds w
      /\ wire = concat hdr ++ w ++ (if is_closed then [48] ++ crlf ++ crlf else [])
  else wire = concat hdr ++ concat ds.

(** What is taken for a chunked body: a size line is any string of hexadecimal
    digits, also the empty one, counted modulo 2^32; the last size line is
    followed by any two bytes. *)
Inductive hexstr : list N -> N -> Prop :=
| hs_nil : hexstr [] 0
| hs_more : forall s n c v,
    hexstr s n -> hexdigit c v -> hexstr (s ++ [c]) (16 * n + v).
Inductive lax_wire : list (list N) -> list N -> Prop :=
| lw_last : forall z n x y, hexstr z n -> n mod 2 ^ 32 = 0 ->
    lax_wire [] (z ++ crlf ++ [x; y])
| lw_chunk : forall s n d ds w,
    hexstr s n -> n mod 2 ^ 32 = N.of_nat (length d) -> d <> [] -> lax_wire ds w ->
    lax_wire (d :: ds) (s ++ crlf ++ d ++ crlf ++ w).

(** A caller with buffers of the given sizes is handed [body]: pieces that are
    not empty and fit, in order; "try again" in between; the end only after all
    of it, and from then on always. *)
Inductive reads_body : list N -> list N -> list cons -> Prop :=
| rb_stop : forall body, reads_body body [] []
| rb_got : forall x body n lens os,
    x <> [] -> N.of_nat (length x) <= n -> reads_body body lens os ->
    reads_body (x ++ body) (n :: lens) (Got x :: os)
| rb_wait : forall body n lens os,
    reads_body body lens os -> reads_body body (n :: lens) (Wait :: os)
| rb_done : forall n lens os,
    length lens = length os -> Forall (eq Done) os ->
    reads_body [] (n :: lens) (Done :: os).

(** The bytes handed over. *)
Fixpoint received (os : list cons) : list N :=
  match os with
  | Got x :: os' => x ++ received os'
  | _ :: os' => received os'
  | [] => []
  end.

(** The bytes that were read from the socket and are not consumed. *)
Definition buffered (r : req) : list N :=
  match first_input r with Some b => bdata b | None => [] end.

(** The bytes appended by the calls that were accepted. *)
Fixpoint appended (os : list (op * bool * list wanswer)) (bs : list bool) : list N :=
  match os, bs with
  | (Append d, _, _) :: os', true :: bs' => d ++ appended os' bs'
  | (AppendChain d _, _, _) :: os', true :: bs' => d ++ appended os' bs'
  | _ :: os', _ :: bs' => appended os' bs'
  | _, _ => []
  end.

(** The bytes of all append calls. *)
Fixpoint offered (os : list (op * bool * list wanswer)) : list N :=
  match os with
  | (Append d, _, _) :: os' => d ++ offered os'
  | (AppendChain d _, _, _) :: os' => d ++ offered os'
  | _ :: os' => offered os'
  | [] => []
  end.

(** The response is not closed and the socket does not fail. *)
Definition op_open (o : op * bool * list wanswer) : Prop :=
  match o with
  | (Flush true, _, _) => False
  | (_, _, ans) => ~ In Broken ans
  end.

(** A write that takes at least one byte. *)
Definition takes (a : wanswer) : Prop := match a with Took n => 0 < n | _ => False end.

(** No interim response in between, and blocks handed over are below 2 GB and
    hold what they say. *)
Definition op_ok (o : op * bool * list wanswer) : Prop :=
  match o with
  | (Continue, _, _) => False
  | (AppendChain d alloc, _, _) => N.of_nat (length d) <= alloc < 2 ^ 31
  | _ => True
  end.

(** One list is a prefix of another. *)
Definition prefix {A} (a b : list A) : Prop := exists t, b = a ++ t.
