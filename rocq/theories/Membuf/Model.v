(** Model of the memory log (src/utils/mtev_log.c:206-461, 2872-2906). *)
From Coq Require Import ZArith NArith Arith List Bool.
Import ListNotations.
Local Open Scope nat_scope.

Definition bytes := list N.
(** sizeof(struct timeval) *)
Definition STAMP : nat := 16.

(** mtev_log.c:206-215 membuf_ctx_t; [cap] is noffsets, [size] segmentsize, [cut]
    segmentcut; the contents of the segment by position *)
Record membuf := mkbuf { head : nat; tail : nat; cap : nat; offsets : list nat; size : nat; cut : nat; segment : nat -> N }.
(** mtev_log.c:217-229 log_stream_membuf_init; [junk] is what malloc gives *)
Definition init (nlogs nbytes : nat) (junk : nat -> N) : membuf :=
  mkbuf 0 0 nlogs (repeat 0 nlogs) nbytes nbytes junk.
(** offsets[i % noffsets] *)
Definition off (b : membuf) (i : nat) : nat := nth (i mod cap b) (offsets b) 0.
(** an assignment to it *)
Fixpoint put (l : list nat) (i v : nat) : list nat :=
  match l, i with
  | [], _ => []
  | _ :: r, O => v :: r
  | x :: r, S i => x :: put r i v
  end.
Definition set_off (b : membuf) (i v : nat) : membuf :=
  mkbuf (head b) (tail b) (cap b) (put (offsets b) (i mod cap b) v) (size b) (cut b) (segment b).
(** memcpy into the segment *)
Definition store (m : nat -> N) (o : nat) (d : bytes) : nat -> N :=
  fun i => if (o <=? i) && (i <? o + length d) then nth (i - o) d 0%N else m i.
(** memcpy from it *)
Definition load (m : nat -> N) (o n : nat) : bytes := map m (seq o n).

(** mtev_log.c:251-258 intersect_seg *)
Definition intersect_seg (a1 a2 b1 b2 : Z) : bool :=
  ((b1 <=? a1) && (a1 <=? b2) || (b1 <=? a2) && (a2 <=? b2))%Z.
(** mtev_log.c:293-295, 309-311 where a line begins and ends *)
Definition bounds (b : membuf) (h : nat) : Z * Z :=
  let o := Z.of_nat (off b h) in
  let e := Z.of_nat (off b (h + 1)) in
  (o, if (e <? o)%Z then Z.of_nat (size b) else e).
(** mtev_log.c:299-300, 313 the bounds check *)
Definition improper (hd att tl : Z * Z) : bool :=
  ((snd hd - 1 <=? fst hd) || (snd att - 1 <=? fst att) || (snd tl - 1 <=? fst tl))%Z.
(** mtev_log.c:305-316 forget lines that are written over; [n] is how many there
    are, [None] is the goto bail *)
Fixpoint advance (b : membuf) (att tl : Z * Z) (n h : nat) : option nat :=
  match n with
  | O => Some h
  | S n =>
      let hd := bounds b h in
      if intersect_seg (fst hd) (snd hd - 1) (fst att) (snd att - 1)
         || intersect_seg (fst hd) (snd hd - 1) (fst tl) (snd tl - 1)
      then if improper (bounds b (h + 1)) att tl then None else advance b att tl n (h + 1)
      else Some h
  end.
(** mtev_log.c:259-336 membuf_logio_writev; [stamp] is the timeval, [text] what is
    in the iovec; the answer, [None] being a copy outside of the segment *)
Definition writev (b : membuf) (stamp text : bytes) : option nat * membuf :=
  let len := STAMP + length text in
  if size b <? len then (Some 0, b)
  else
    let offset := off b (tail b) in
    let b := if cut b <? offset + len
             then mkbuf (head b) (tail b) (cap b) (offsets b) (size b) (size b) (segment b) else b in
    let wrap := size b <? offset + len in
    let att := if wrap then (Z.of_nat offset, Z.of_nat (offset + len)) else (-3, -1)%Z in
    let b := if wrap
             then set_off (mkbuf (head b) (tail b) (cap b) (offsets b) (size b) offset (segment b)) (tail b) 0 else b in
    let offset := if wrap then 0 else offset in
    let nexttailoff := offset + len in
    let tl := (Z.of_nat (off b (tail b)), Z.of_nat nexttailoff) in
    if negb (head b =? tail b) && improper (bounds b (head b)) att tl then (Some 0, b)
    else
      match advance b att tl (tail b - head b) (head b) with
      | None => (Some 0, b)
      | Some h =>
          let h := if (tail b + 1) mod cap b =? h mod cap b then h + 1 else h in
          let b' := set_off b (tail b + 1) nexttailoff in
          if size b <? offset + len then (None, b)
          else (Some len, mkbuf h (tail b + 1) (cap b) (offsets b') (size b) (cut b)
                                (store (segment b) offset (stamp ++ text)))
      end.

(** mtev_log.c:441-457 what the callback is given for a line: index, time, text;
    [None] if that is outside of the segment *)
Definition line (b : membuf) (idx : nat) : option (nat * bytes * bytes) :=
  let o := off b idx in
  let e := off b (idx + 1) in
  let len := (if (o <? e)%nat then Z.of_nat e - Z.of_nat o else (Z.of_nat (cut b) - Z.of_nat o) mod 2 ^ 32)%Z in
  let len := ((len - Z.of_nat STAMP) mod 2 ^ 64)%Z in
  if (Z.of_nat o + Z.of_nat STAMP + len <=? Z.of_nat (size b))%Z
  then Some (idx, load (segment b) o STAMP, load (segment b) (o + STAMP) (Z.to_nat len))
  else None.
(** mtev_log.c:415-461 mtev_log_memory_lines_since, for a callback that always
    answers 0; [None] stands for lines outside of the segment *)
Definition lines_since (b : membuf) (after : nat) : list (option (nat * bytes * bytes)) :=
  if head b =? tail b then []
  else
    let idx := after + 1 in
    if idx =? tail b then []
    else
      let idx := if ((tail b <? head b) && (idx <? head b) && (tail b <=? idx))
                    || ((head b <? tail b) && ((tail b <=? idx) || (idx <? head b)))
                 then head b else idx in
      map (line b) (seq idx (tail b - idx)).
(** mtev_log.c:391-413 mtev_log_memory_lines; [log_lines] 0 or less is 0 here *)
Definition memory_lines (b : membuf) (log_lines : nat) : list (option (nat * bytes * bytes)) :=
  let t := tail b mod cap b in
  let h := head b mod cap b in
  let nmsg := if h <=? t then t - h else t + cap b - h in
  let n := if log_lines =? 0 then nmsg else log_lines in
  let n := Nat.min n nmsg in
  lines_since b (if n <=? tail b then tail b - n else 0).
(** mtev_log.c:2872-2906 speculate, lines written, and finish: the lines logged *)
Definition write_all (b : membuf) (l : list (bytes * bytes)) : membuf :=
  fold_left (fun b m => snd (writev b (fst m) (snd m))) l b.
Definition speculate_commit (nlogs nbytes : nat) (junk : nat -> N) (l : list (bytes * bytes)) : list (option (nat * bytes * bytes)) :=
  memory_lines (write_all (init nlogs nbytes junk) l) 0.
