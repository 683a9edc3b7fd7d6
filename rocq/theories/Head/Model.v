(** Model of the HTTP/1 request head reader of src/mtev_http1.c and of the
    decoding of query strings (src/mtev_http_private.h). *)
From Coq Require Import NArith ZArith List Bool Ascii String.
Import ListNotations.
Local Open Scope nat_scope.

Definition bytes := list N.
(** A C string literal. *)
Fixpoint bs (s : string) : bytes :=
  match s with EmptyString => [] | String a r => N_of_ascii a :: bs r end.

(** What a function does: return, set *err (the FAIL of mtev_http1.c:709, the
    connection is closed), or leave defined behaviour: an access outside the
    bytes of a buffer that were written, overlapping memcpy, use after free, a
    failed mtevAssert. *)
Inductive res (A : Type) := Done (a : A) | Refused | Bad.
Arguments Done {A}. Arguments Refused {A}. Arguments Bad {A}.
(** sequencing *)
Definition bind {A B} (r : res A) (f : A -> res B) : res B :=
  match r with Done a => f a | Refused => Refused | Bad => Bad end.

(** bytes equal (memcmp(..) == 0, strcmp(..) == 0) *)
Fixpoint beq (a b : bytes) : bool :=
  match a, b with
  | [], [] => true
  | x :: a', y :: b' => N.eqb x y && beq a' b'
  | _, _ => false
  end.
(** does the needle stand at the front? *)
Definition front (needle l : bytes) : bool := beq needle (firstn (List.length needle) l).
(** mtev_memmem (utils/mtev_str.c:87-94, memmem) and strstr: the offset of the
    first occurrence; the needles are not empty *)
Fixpoint memmem (needle l : bytes) : option nat :=
  if front needle l then Some 0
  else match l with
       | [] => None
       | _ :: r => option_map S (memmem needle r)
       end.
(** strchr: the offset of the first [c] *)
Fixpoint strchr (c : N) (l : bytes) : option nat :=
  match l with
  | [] => None
  | x :: r => if N.eqb x c then Some 0 else option_map S (strchr c r)
  end.

Definition CRLF : bytes := [13; 10]%N.
(** mtev_http1.c:60-61 REQ_PAT, REQ_PATSIZE *)
Definition REQ_PAT : bytes := [13; 10; 13; 10]%N.
Definition REQ_PATSIZE : nat := 4.

(** * Blocks *)

(** mtev_http_private.h:90-100 struct bchain: the bytes of buff written so
    far, start, size, allocd *)
Record blk := mkblk { mem : bytes; start : nat; size : nat; allocd : nat }.
(** the bytes at buff + start *)
Definition data (b : blk) : bytes := firstn (size b) (skipn (start b) (mem b)).

(** * One line *)

(** a C string: the bytes up to the first NUL; [None] when there is none
    within the bytes written *)
Fixpoint cstr (l : bytes) : option bytes :=
  match l with
  | [] => None
  | x :: r => if N.eqb x 0 then Some [] else option_map (cons x) (cstr r)
  end.
(** ' ' or '\t' *)
Definition ws (c : N) : bool := N.eqb c 32 || N.eqb c 9.
(** mtev_http1.c:493,504 skip white space *)
Fixpoint skip_ws (l : bytes) : bytes :=
  match l with
  | [] => []
  | x :: r => if ws x then skip_ws r else l
  end.
(** tolower in the C locale *)
Definition lower (c : N) : N := if (N.leb 65 c && N.leb c 90)%N then (c + 32)%N else c.
(** mtev_http1.c:501-503 the white space at the end of the name becomes NULs.
    A name does not start with white space (line 492), so the loop stops
    within it unless it is empty; see [header_line] for that case. *)
Fixpoint rtrim (l : bytes) : bytes :=
  match l with
  | [] => []
  | x :: r => match rtrim r with
              | [] => if ws x then [] else [x]
              | r' => x :: r'
              end
  end.
(** mtev_http1.c:489-506 _extract_header: the name ([None] for a
    continuation line) and the value *)
Definition extract_header (l : bytes) : option (option bytes * bytes) :=
  match l with
  | x :: _ =>
      if ws x then Some (None, skip_ws l)
      else match strchr 58 l with
           | None => None
           | Some k => Some (Some (rtrim (map lower (firstn k l))), skip_ws (skipn (S k) l))
           end
  | [] => None
  end.

(** strcasecmp == 0 *)
Definition caseeq (a b : bytes) : bool := beq (map lower a) (map lower b).
(** mtev_http.h mtev_http_method, mtev_http_protocol *)
Inductive meth := GET | HEAD | POST | OTHER.
Inductive proto := HTTP11 | HTTP10 | HTTP09.
(** mtev_http1.c:413-429 _method_enum *)
Definition method_enum (s : bytes) : meth :=
  match s with
  | 71 :: _ => if caseeq s (bs "GET") then GET else OTHER
  | 72 :: _ => if caseeq s (bs "HEAD") then HEAD else OTHER
  | 80 :: _ => if caseeq s (bs "POST") then POST else OTHER
  | _ => OTHER
  end%N.
(** mtev_http1.c:430-435 _protocol_enum *)
Definition protocol_enum (s : bytes) : proto :=
  if caseeq s (bs "HTTP/1.1") then HTTP11
  else if caseeq s (bs "HTTP/1.0") then HTTP10 else HTTP09.

(** * The lines of a head *)

(** The headers table: mtev_hash_replace and mtev_hash_retrieve
    (mtev_http1.c:737,744,758,769,778). *)
Definition table := list (bytes * bytes).
Fixpoint hget (t : table) (k : bytes) : option bytes :=
  match t with
  | [] => None
  | (k', v) :: r => if beq k' k then Some v else hget r k
  end.
Fixpoint hset (t : table) (k v : bytes) : table :=
  match t with
  | [] => [(k, v)]
  | (k', v') :: r => if beq k' k then (k', v) :: r else (k', v') :: hset r k v
  end.

(** mtev_http1.c:81-121 struct mtev_http1_request, the fields set from the
    request line and the header lines; last_name of mtev_http1.c:596; the
    bits GZIP, DEFLATE, LZ4F of opts *)
Record parsed := mkparsed {
  line1 : option (bytes * bytes * bytes);
  headers : table;
  last_name : option bytes;
  gzip : bool; deflate : bool; lz4f : bool }.
(** a request zeroed by mtev_http1_request_release (mtev_http1.c:979) *)
Definition nothing_yet : parsed := mkparsed None [] None false false false.

(** mtev_http1.c:710-723 the request line *)
Definition request_line (s : parsed) (l : bytes) : res parsed :=
  match strchr 32 l with
  | None => Refused
  | Some k =>
      let r := skipn (S k) l in
      match strchr 32 r with
      | None => Refused
      | Some j => Done (mkparsed (Some (firstn k l, firstn j r, skipn (S j) r)) (headers s) (last_name s)
                                 (gzip s) (deflate s) (lz4f s))
      end
  end.
(** strstr(value, ..) is not NULL *)
Definition contains (v needle : bytes) : bool :=
  match memmem needle v with Some _ => true | None => false end.
(** mtev_http1.c:728-732 *)
Definition accept (s : parsed) (name value : bytes) : parsed :=
  if beq name (bs "accept-encoding")
  then mkparsed (line1 s) (headers s) (last_name s)
                (gzip s || contains value (bs "gzip"))
                (deflate s || contains value (bs "deflate"))
                (lz4f s || contains value (bs "lz4f"))
  else s.
(** mtev_http1.c:724-762 a header line. [before] tells whether there is a
    byte in front of the line in its buffer (the newline of the line before):
    with an empty name line 502 reads it. *)
Definition header_line (s : parsed) (before : bool) (l : bytes) : res parsed :=
  match extract_header l with
  | None => Refused
  | Some (Some name, value) =>
      if match name with [] => negb before | _ => false end then Bad
      else
        let s := accept s name value in
        Done (mkparsed (line1 s) (hset (headers s) name value) (Some name) (gzip s) (deflate s) (lz4f s))
  | Some (None, value) =>
      match last_name s with
      | None => Refused
      | Some n =>
          let s := accept s n value in
          match hget (headers s) n with
          | None => Refused
          | Some prefix =>
              Done (mkparsed (line1 s) (hset (headers s) n (prefix ++ 32%N :: value)) (last_name s)
                             (gzip s) (deflate s) (lz4f s))
          end
      end
  end.
(** mtev_http1.c:702-706 the line, and what comes after its CRLF *)
Definition next_line (l : bytes) : bytes * option bytes :=
  match memmem CRLF l with
  | Some k => (firstn k l, Some (skipn (k + 2) l))
  | None => (l, None)
  end.
(** mtev_http1.c:701-764 the do loop over the lines of the string [l]; [fuel]
    bounds the number of lines by the bytes of the string *)
Fixpoint lines_loop (fuel : nat) (s : parsed) (before : bool) (l : bytes) : res parsed :=
  match fuel with
  | O => Bad
  | S fuel =>
      let (line, next) := next_line l in
      match line1 s, line with
      | Some _, [] => Done s                                                      (* :707 *)
      | o, _ =>
          bind (match o with None => request_line s line | Some _ => header_line s before line end)
            (fun s => match next with None => Done s | Some l => lines_loop fuel s true l end)
      end
  end.
(** mtev_http1.c:697-765 one block: the NUL stored two bytes before its end,
    and its lines *)
Definition block_lines (s : parsed) (b : blk) : res parsed :=
  if start b + size b <? 2 then Bad
  else
    let at_ := start b + size b - 2 in
    if List.length (mem b) <=? at_ then Bad
    else
      let m := firstn at_ (mem b) ++ 0%N :: skipn (S at_) (mem b) in
      match cstr (skipn (start b) m) with
      | None => Bad
      | Some l => lines_loop (S (List.length l)) s (0 <? start b) l
      end.
(** mtev_http1.c:697 *)
Fixpoint chain_lines (s : parsed) (l : list blk) : res parsed :=
  match l with
  | [] => Done s
  | b :: r => bind (block_lines s b) (fun s => chain_lines s r)
  end.

(** * Framing *)

(** strtoll(val, NULL, 10) (mtev_http1.c:782) *)
Definition isspace (c : N) : bool := (N.leb 9 c && N.leb c 13) || N.eqb c 32.
Fixpoint skip_space (l : bytes) : bytes :=
  match l with
  | [] => []
  | x :: r => if isspace x then skip_space r else l
  end.
Fixpoint digits (l : bytes) (acc : Z) : Z :=
  match l with
  | [] => acc
  | x :: r => if (N.leb 48 x && N.leb x 57)%N then digits r (10 * acc + Z.of_N (x - 48)) else acc
  end.
Definition clamp (x : Z) : Z := Z.max (- 2 ^ 63) (Z.min (2 ^ 63 - 1) x).
Definition strtoll (l : bytes) : Z :=
  match skip_space l with
  | 45%N :: r => clamp (- digits r 0)
  | 43%N :: r => clamp (digits r 0)
  | r => clamp (digits r 0)
  end.

(** has_payload, payload_chunked and content_length *)
Inductive body := NoBody | Chunked | Length (n : Z).
(** what the server does next: run the request, or answer 100 Continue first *)
Record request := mkrequest {
  method_str : bytes; uri_str : bytes; protocol_str : bytes;
  method : meth; protocol : proto;
  fields : table;
  wants_gzip : bool; wants_deflate : bool; wants_lz4f : bool;
  payload : body;
  expects : bool }.

(** mtev_http1.c:768-784 *)
Definition framing (t : table) : body :=
  match hget t (bs "transfer-encoding") with
  | Some v => if beq v (bs "chunked") then Chunked
              else match hget t (bs "content-length") with
                   | Some n => Length (strtoll n)
                   | None => NoBody
                   end
  | None => match hget t (bs "content-length") with
            | Some n => Length (strtoll n)
            | None => NoBody
            end
  end.
(** mtev_http1.c:786-806, 833-838, 899-911: whatever the state is left as, the
    request is complete after mtev_http1_request_finalize or after the
    100 Continue *)
Definition conclude (s : parsed) : res request :=
  match line1 s with
  | None => Bad
  | Some (m, u, p) =>
      let b := framing (headers s) in
      let done e := Done (mkrequest m u p (method_enum m) (protocol_enum p) (headers s)
                                    (gzip s) (deflate s) (lz4f s) b e) in
      match hget (headers s) (bs "expect") with
      | Some v => if negb (beq (firstn 4 v) (bs "100-")) || match b with NoBody => true | _ => false end
                  then Refused else done true
      | None => done false
      end
  end.

(** * Lines across blocks *)

(** does CRLF stand at [i]? *)
Definition crlf_at (d : bytes) (i : nat) : bool := front CRLF (skipn i d).
(** mtev_http1.c:452-459 from the offset [n - 1] down; the result is
    start_in_b - b->start *)
Fixpoint back (d : bytes) (n : nat) : Z :=
  match n with
  | O => (-1)%Z
  | S m => if crlf_at d m then Z.of_nat (m + 2) else back d m
  end.
(** mtev_http1.c:447-459: [None] when the block ends with a CRLF *)
Definition start_in (d : bytes) : option Z :=
  if 2 <? List.length d then
    if crlf_at d (List.length d - 2) then None else Some (back d (List.length d - 2))
  else Some 0%Z.
(** mtev_http1.c:465-484 the new block between [b] and [n]. Line 478 copies
    from the new block, not from [n]: memcpy(f->buff + t, f->buff, end_in_f),
    where the first t bytes of f->buff have been written. *)
Definition join (bsize : nat) (b : blk) (s : Z) (n : blk) : res (blk * blk * blk) :=
  match memmem CRLF (data n) with
  | None => Refused
  | Some k =>
      let end_in_f := k + 2 in
      let t := Z.to_nat (Z.of_nat (size b) - s) in
      if bsize <? end_in_f + t then Refused
      else if (Z.of_nat (start b) + s <? 0)%Z then Bad
      else
        let tail := firstn t (skipn (Z.to_nat (Z.of_nat (start b) + s)) (mem b)) in
        if t <? end_in_f then Bad
        else
          Done (mkblk (mem b) (start b) (Z.to_nat (Z.of_nat (size b) - s)) (allocd b),
                mkblk (tail ++ firstn end_in_f tail) 0 (end_in_f + t) (end_in_f + t),
                mkblk (mem n) (start n + end_in_f) (size n - end_in_f) (allocd n))
  end.
(** mtev_http1.c:436-488 _fixup_bchain *)
Fixpoint fixup (bsize : nat) (b : blk) (rest : list blk) : res (list blk) :=
  match start_in (data b) with
  | None => match rest with
            | [] => Done [b]
            | n :: r => bind (fixup bsize n r) (fun l => Done (b :: l))
            end
  | Some s => match rest with
              | [] => Refused
              | n :: r => bind (join bsize b s n) (fun t =>
                          let '(b', f, n') := t in
                          bind (fixup bsize n' r) (fun l => Done (b' :: f :: l)))
              end
  end.

(** mtev_http1.c:691-807 from the chain of a complete head to the request *)
Definition dissect (bsize : nat) (chain : list blk) : res request :=
  match chain with
  | [] => Bad
  | b :: r => bind (fixup bsize b r) (fun l => bind (chain_lines nothing_yet l) conclude)
  end.

(** * The end of a head *)

(** the input: first_input to last_input, the place of current_input in it,
    current_offset - current_input->start *)
Record input := mkinput { blocks : list blk; cur : nat; off : nat }.
(** mtev_http1.c:964 after release: nothing *)
Definition no_input : input := mkinput [] 0 0.

(** mtev_http1.c:607-611 *)
Fixpoint eat (fuel : nat) (b : blk) : blk :=
  match fuel with
  | O => b
  | S fuel => if (2 <=? size b) && front CRLF (data b)
              then eat fuel (mkblk (mem b) (start b + 2) (size b - 2) (allocd b))
              else b
  end.
(** mtev_http1.c:606-621 *)
Definition eat_crlf (l : list blk) : list blk :=
  match l with
  | [] => []
  | b :: r =>
      let b := eat (size b) b in
      match r with
      | n :: r' =>
          if (size b =? 1) && (0 <? size n) && beq (data b) [13%N] && front [10%N] (data n)
          then mkblk (mem b) (start b) 0 (allocd b)
               :: mkblk (mem n) (start n + 1) (size n - 1) (allocd n) :: r'
          else b :: r
      | [] => [b]
      end
  end.

Inductive crossing := CWait (off : nat) | CMatch (off : nat) | CThrough (off : nat) | CBad.
(** mtev_http1.c:628-644 the loop for a pattern that began in the block
    before; [fuel] is REQ_PATSIZE at least. Line 642 compares with the end of
    the pattern where the beginning is meant. *)
Fixpoint cross (fuel : nat) (prev b : blk) (last : bool) (o : nat) : crossing :=
  match fuel with
  | O => CBad
  | S fuel =>
      if o <? REQ_PATSIZE - 1 then
        if last && (size b <=? o) then CWait o
        else
          let inset := S o in
          if size b <? inset then CBad
          else if beq (firstn inset (data b)) (skipn (REQ_PATSIZE - inset) REQ_PAT) then
            if start prev + size prev <? REQ_PATSIZE - inset then CBad
            else if beq (firstn (REQ_PATSIZE - inset)
                                (skipn (start prev + size prev - (REQ_PATSIZE - inset)) (mem prev)))
                        (firstn (REQ_PATSIZE - inset) (skipn inset REQ_PAT))
            then CMatch inset
            else cross fuel prev b last inset
          else cross fuel prev b last inset
      else CThrough o
  end.
Inductive found := SWait (i o : nat) | SMatch (i o : nat) | SBad.
(** mtev_http1.c:627-655 from the block [b], the [i]-th *)
Fixpoint search (i : nat) (prev : option blk) (b : blk) (rest : list blk) (o : nat) : found :=
  let last := match rest with [] => true | _ => false end in
  match (match prev with Some p => cross REQ_PATSIZE p b last o | None => CThrough o end) with
  | CBad => SBad
  | CWait o => SWait i o
  | CMatch o => SMatch i o
  | CThrough o =>
      match memmem REQ_PAT (skipn (o - REQ_PATSIZE) (data b)) with
      | Some k => SMatch i (o - REQ_PATSIZE + k + REQ_PATSIZE)
      | None => match rest with
                | [] => SWait i o
                | n :: r => search (S i) (Some b) n r 0
                end
      end
  end.

(** what comes of a call of mtev_http1_request_finalize: wait for more input,
    or the request with the input left *)
Inductive fin := Wait (i : input) | Complete (r : request) (rest : list blk).

(** mtev_http1.c:592-690 with the rest of the function *)
Definition finalize (bsize : nat) (i : input) : res fin :=
  let bl := if cur i =? 0 then eat_crlf (blocks i) else blocks i in
  match skipn (cur i) bl with
  | [] => Done (Wait (mkinput bl (cur i) (off i)))
  | b :: rest =>
      match search (cur i) (match cur i with O => None | S j => nth_error bl j end) b rest (off i) with
      | SBad => Bad
      | SWait c o => Done (Wait (mkinput bl c o))
      | SMatch c o =>
          match nth_error bl c with
          | None => Bad
          | Some b =>
              if o <? size b then                                                 (* left-overs *)
                let left := mkblk (skipn o (data b)) 0 (size b - o) (size b - o) in
                if S c =? List.length bl then
                  bind (dissect bsize (firstn c bl ++ [mkblk (mem b) (start b) o (allocd b)]))
                       (fun r => Done (Complete r [left]))
                else Bad                                                          (* :680-681 *)
              else bind (dissect bsize bl) (fun r => Done (Complete r []))
          end
      end
  end.

(** * Reading *)

(** the answer of one eventer_read: up to n + 1 bytes are there, EAGAIN (the
    function returns and is called again later), the end of file *)
Inductive answer := Ready (n : nat) | Again | Eof.

(** mtev_http_private.h:105-106 DEFAULT_BCHAINMINREAD, BCHAIN_SPACE *)
Definition minread (bsize : nat) : nat := bsize / 4.
Definition space (b : blk) : nat := allocd b - size b - start b.
(** mtev_http1.c:866-881 the block to read into is the last one *)
Definition room (bsize : nat) (l : list blk) : list blk :=
  match rev l with
  | [] => [mkblk [] 0 0 bsize]
  | b :: _ => if (0 <? size b) && (space b <? minread bsize) && (minread bsize <? bsize)
              then l ++ [mkblk [] 0 0 bsize] else l
  end.
(** mtev_http1.c:883-902 the bytes read go to its end *)
Fixpoint put (l : list blk) (d : bytes) : list blk :=
  match l with
  | [] => []
  | [b] => [mkblk (mem b ++ d) (start b) (size b + List.length d) (allocd b)]
  | b :: r => b :: put r d
  end.
Fixpoint last_space (l : list blk) : nat :=
  match l with
  | [] => 0
  | [b] => space b
  | _ :: r => last_space r
  end.

Inductive outcome :=
| Waiting (i : input) (unread : bytes)
| Served (r : request) (left : list blk) (unread : bytes)
| Closed
| Undefined.

(** mtev_http1.c:846-925 mtev_http1_complete_request from the first call on,
    over the answers of the reads; the loop at 863. After EAGAIN the function
    is entered again (line 860). *)
Fixpoint reads (bsize : nat) (i : input) (ans : list answer) (unread : bytes) : outcome :=
  match ans with
  | [] => Waiting i unread
  | a :: ans =>
      let bl := room bsize (blocks i) in
      let d := match a with
               | Ready n => firstn (Nat.min (S n) (last_space bl)) unread
               | _ => []
               end in
      match finalize bsize (mkinput (put bl d) (cur i) (off i)) with
      | Done (Wait i) =>
          match a, d with
          | Again, _ => reads bsize i ans unread
          | _, [] => Closed                                                       (* :904 *)
          | _, _ => reads bsize i ans (skipn (List.length d) unread)
          end
      | Done (Complete r l) => Served r l (skipn (List.length d) unread)
      | Refused => Closed
      | Bad => Undefined
      end
  end.
(** a connection that starts *)
Definition serve (bsize : nat) (ans : list answer) (stream : bytes) : outcome :=
  reads bsize no_input ans stream.

(** * The query string *)

(** mtev_http_private.h:134-137 the value of a hexadecimal digit *)
Definition hex (c : N) : option N :=
  if (N.leb 48 c && N.leb c 57)%N then Some (c - 48)%N
  else if (N.leb 97 c && N.leb c 102)%N then Some (c - 97 + 10)%N
  else if (N.leb 65 c && N.leb c 70)%N then Some (c - 65 + 10)%N
  else None.
(** mtev_http_private.h:130-153 inplace_urldecode: the bytes written. The
    output never gets ahead of the input. *)
Fixpoint urldecode (l : bytes) : bytes :=
  match l with
  | [] => []
  | c :: r =>
      if N.eqb c 37 then
        match r with
        | a :: b :: r' =>
            match hex a, hex b with
            | Some x, Some y => N.lor (N.shiftl x 4) y :: urldecode r'
            | _, _ => c :: urldecode r
            end
        | _ => c :: urldecode r
        end
      else (if N.eqb c 43 then 32%N else c) :: urldecode r
  end.
(** what reading the result as a C string gives *)
Fixpoint upto_nul (l : bytes) : bytes :=
  match l with
  | [] => []
  | x :: r => if N.eqb x 0 then [] else x :: upto_nul r
  end.

(** strtok_r(.., "&", ..): the pieces between the ampersands that are not
    empty; [acc] holds the piece so far *)
Fixpoint strtok (l : bytes) (acc : bytes) : list bytes :=
  match l with
  | [] => match acc with [] => [] | _ => [acc] end
  | x :: r => if N.eqb x 38 then match acc with [] => strtok r [] | _ => acc :: strtok r [] end
              else strtok r (acc ++ [x])
  end.
(** the query string table: mtev_hash_store keeps the value that is there *)
Definition params := list (bytes * option bytes).
Fixpoint qget (t : params) (k : bytes) : option (option bytes) :=
  match t with
  | [] => None
  | (k', v) :: r => if beq k' k then Some v else qget r k
  end.
Definition qstore (t : params) (k : bytes) (v : option bytes) : params :=
  match qget t k with Some _ => t | None => t ++ [(k, v)] end.
(** mtev_http1.c:817-829 one piece *)
Definition param (t : params) (p : bytes) : params :=
  match strchr 61 p with
  | None => qstore t (upto_nul (urldecode p)) None
  | Some k => qstore t (upto_nul (urldecode (firstn k p))) (Some (upto_nul (urldecode (skipn (S k) p))))
  end.
(** mtev_http1.c:808-831 mtev_http1_process_querystring and line 1709: the
    path, orig_qs and the table *)
Definition process_uri (u : bytes) : bytes * option bytes * params :=
  match strchr 63 u with
  | None => (upto_nul (urldecode u), None, [])
  | Some k =>
      let q := skipn (S k) u in
      (upto_nul (urldecode (firstn k u)), Some q, fold_left param (strtok q []) [])
  end.
(** mtev_http1.c:352-358 mtev_http1_request_querystring: NULL also for a
    parameter without value *)
Definition querystring (t : params) (k : bytes) : option bytes :=
  match qget t k with Some v => v | None => None end.
