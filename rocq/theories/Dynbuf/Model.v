(** Model of src/utils/mtev_dyn_buffer.c: a buffer that starts in a 4096-byte array inside the
    structure and moves to the heap when it outgrows it.  An allocation is the list of its bytes,
    [None] for a byte never written; [Ub] is an access outside an allocation, [Abort] a failed
    mtevAssert.  malloc and realloc are taken to succeed. *)
From Coq Require Import Arith NArith ZArith List Bool.
Import ListNotations.

Inductive res (A : Type) := Ok (a : A) | Ub | Abort.
Arguments Ok {A} a. Arguments Ub {A}. Arguments Abort {A}.

(** a C expression sequence: stop at the first undefined access or failed assertion *)
Definition bind {A B} (r : res A) (f : A -> res B) : res B :=
  match r with Ok a => f a | Ub => Ub | Abort => Abort end.

Definition byte := option N.

(** size_t arithmetic (mtev_dyn_buffer.c:92-100) *)
Definition w64 (a : nat) : nat := N.to_nat (N.of_nat a mod 2 ^ 64).

(** assignment of a size_t to an int (mtev_dyn_buffer.c:50,62): modulo 2^32, two's complement *)
Definition to_int (a : Z) : Z :=
  let m := (a mod 2 ^ 32)%Z in if (m <? 2 ^ 31)%Z then m else (m - 2 ^ 32)%Z.

(** passing an int for a size_t parameter (mtev_dyn_buffer.c:51,63) *)
Definition to_size (z : Z) : nat := Z.to_nat (z mod 2 ^ 64).

(** memory fresh from malloc (mtev_dyn_buffer.c:97,159) *)
Definition fresh (n : nat) : list byte := repeat None n.

(** memcpy source: [n] bytes at the front of an allocation (mtev_dyn_buffer.c:98,160) *)
Definition front (mem : list byte) (n : nat) : res (list byte) :=
  if Nat.leb n (length mem) then Ok (firstn n mem) else Ub.

(** memcpy destination, or the stores of vsnprintf (mtev_dyn_buffer.c:32,51,63,66,98,160,164) *)
Definition blit (mem : list byte) (off : nat) (d : list byte) : res (list byte) :=
  if Nat.leb (off + length d) (length mem)
  then Ok (firstn off mem ++ d ++ skipn (off + length d) mem) else Ub.

(** mtev_dyn_buffer.h:54-59.  [mem] is what data points at, [heap] tells data != static_buffer,
    [pos] is pos - data (an integer: the code can step in front of data), [live] counts the heap
    blocks allocated so far and not freed. *)
Record buf := { mem : list byte; heap : bool; pos : Z; size : nat; live : nat }.

(** the array in the structure (mtev_dyn_buffer.h:55) *)
Definition static_size : nat := N.to_nat 4096.

(** mtev_dyn_buffer.c:20-26; the bytes of the static array are unknown *)
Definition init_with (n : nat) : buf :=
  {| mem := fresh static_size; heap := false; pos := 0%Z; size := static_size; live := n |}.

(** a buffer on the stack (mtev_dyn_buffer.c:20-26) *)
Definition init : buf := init_with 0.

(** mtev_dyn_buffer.c:108-112, as a size_t *)
Definition used (b : buf) : nat := Z.to_nat (pos b mod 2 ^ 64).

(** realloc (mtev_dyn_buffer.c:101) *)
Definition realloc (m : list byte) (n : nat) : list byte :=
  firstn n m ++ fresh (n - length m).

(** mtev_dyn_buffer.c:89-106 *)
Definition ensure (b : buf) (len : nat) : res buf :=
  let u := used b in
  if Nat.ltb (size b) (w64 (u + len)) then
    if heap b then
      let ns := Nat.max (w64 (size b * 2)) (w64 (u + len)) in
      Ok {| mem := realloc (mem b) ns; heap := true; pos := Z.of_nat u; size := ns; live := live b |}
    else
      let ns := w64 (w64 (u + len) * 2) in
      bind (front (mem b) u) (fun d =>
      bind (blit (fresh ns) 0 d) (fun m =>
      Ok {| mem := m; heap := true; pos := Z.of_nat u; size := ns; live := S (live b) |}))
  else Ok b.

(** store at pos (mtev_dyn_buffer.c:32,51,54,63,66) *)
Definition put (b : buf) (d : list byte) : res buf :=
  if (pos b <? 0)%Z then Ub
  else bind (blit (mem b) (Z.to_nat (pos b)) d) (fun m =>
       Ok {| mem := m; heap := heap b; pos := pos b; size := size b; live := live b |}).

(** mtev_dyn_buffer.c:132-136, also the += at 33, 56 and 70 *)
Definition advance (b : buf) (n : Z) : buf :=
  {| mem := mem b; heap := heap b; pos := (pos b + n)%Z; size := size b; live := live b |}.

(** mtev_dyn_buffer.c:28-34 *)
Definition add (b : buf) (data : list N) : res buf :=
  bind (ensure b (length data)) (fun b1 =>
  bind (put b1 (map Some data)) (fun b2 =>
  Ok (advance b2 (Z.of_nat (length data))))).

(** vsnprintf (mtev_dyn_buffer.c:51,54,63).  The text is what the format and arguments denote, or
    [None] for an encoding error, which makes the call return -1 (so does a text whose length is
    not an int, ISO C and POSIX EOVERFLOW).  Otherwise the first n-1 bytes and a NUL are stored when
    n > 0 and the length of the text is returned. *)
Definition vsnprintf (b : buf) (n : nat) (text : option (list N)) : res (buf * Z) :=
  match text with
  | None => Ok (b, (-1)%Z)
  | Some s =>
      if (Z.of_nat (length s) <? 2 ^ 31)%Z then
        match n with
        | O => Ok (b, Z.of_nat (length s))
        | S k => bind (put b (map Some (firstn k s ++ [0%N]))) (fun b1 =>
                 Ok (b1, Z.of_nat (length s)))
        end
      else Ok (b, (-1)%Z)
  end.

(** available at mtev_dyn_buffer.c:50 and 62 *)
Definition available (b : buf) : Z := to_int ((Z.of_nat (size b) - Z.of_nat (used b)) mod 2 ^ 64).

(** mtev_dyn_buffer.c:41-58 *)
Definition add_vprintf (b : buf) (text : option (list N)) : res buf :=
  let a := available b in
  bind (vsnprintf b (to_size a) text) (fun r =>
  let '(b1, needed) := r in
  if (needed >? a - 1)%Z then
    bind (ensure b1 (to_size (needed + 1))) (fun b2 =>
    bind (vsnprintf b2 (to_size (needed + 1)) text) (fun r2 =>
    let '(b3, needed2) := r2 in Ok (advance b3 needed2)))
  else Ok (advance b1 needed)).

(** mtev_dyn_buffer.c:60-72: the buffer and the returned int *)
Definition maybe_add_vprintf (b : buf) (text : option (list N)) : res (buf * Z) :=
  let a := available b in
  bind (vsnprintf b (to_size a) text) (fun r =>
  let '(b1, needed) := r in
  if (needed >? a - 1)%Z then
    bind (if (a >? 0)%Z then put b1 [Some 0%N] else Ok b1) (fun b2 =>
    Ok (b2, (needed + 1)%Z))
  else Ok (advance b1 needed, 0%Z)).

(** mtev_dyn_buffer.c:74-87 *)
Definition add_printf (b : buf) (text : option (list N)) : res buf :=
  bind (maybe_add_vprintf b text) (fun r =>
  let '(b1, needed) := r in
  if (needed =? 0)%Z then Ok b1
  else bind (ensure b1 (to_size needed)) (fun b2 =>
       bind (maybe_add_vprintf b2 text) (fun r2 =>
       let '(b3, again) := r2 in
       if (again =? 0)%Z then Ok b3 else Abort))).

(** a caller storing [d] through mtev_dyn_buffer_write_pointer and advancing
    (mtev_dyn_buffer.c:126-136) *)
Definition fill (b : buf) (d : list N) : res buf :=
  bind (put b (map Some d)) (fun b1 => Ok (advance b1 (Z.of_nat (length d)))).

(** mtev_dyn_buffer.c:138-142 *)
Definition reset (b : buf) : buf :=
  {| mem := mem b; heap := heap b; pos := 0%Z; size := size b; live := live b |}.

(** mtev_dyn_buffer.c:144-151 *)
Definition destroy (b : buf) : buf := init_with (if heap b then live b - 1 else live b).

(** mtev_dyn_buffer.c:153-166: the detached allocation and the reinitialised buffer *)
Definition detach (b : buf) : res (list byte * buf) :=
  let length_ := used b in
  bind (if negb (heap b) || Nat.eqb length_ (size b)
        then bind (front (mem b) length_) (fun d =>
             bind (blit (fresh (w64 (length_ + 1))) 0 d) (fun m =>
             Ok (m, if heap b then S (live b) - 1 else S (live b))))
        else Ok (mem b, live b)) (fun r =>
  let '(m, l) := r in
  bind (blit m length_ [Some 0%N]) (fun m' => Ok (m', init_with l))).

(** the calls of the interface (mtev_dyn_buffer.h:67-205); [Fill] stands for a caller's own store
    through the write pointer followed by advance *)
Inductive op :=
  | Add (data : list N)
  | Ensure (n : nat)
  | Vprintf (text : option (list N))
  | MaybeVprintf (text : option (list N))
  | Printf (text : option (list N))
  | Fill (data : list N)
  | Reset
  | Destroy.

(** one call (mtev_dyn_buffer.c:28-151) *)
Definition step (b : buf) (o : op) : res buf :=
  match o with
  | Add d => add b d
  | Ensure n => ensure b n
  | Vprintf t => add_vprintf b t
  | MaybeVprintf t => bind (maybe_add_vprintf b t) (fun r => Ok (fst r))
  | Printf t => add_printf b t
  | Fill d => fill b d
  | Reset => Ok (reset b)
  | Destroy => Ok (destroy b)
  end.

(** a sequence of calls on one buffer (mtev_dyn_buffer.c:28-151) *)
Fixpoint run (b : buf) (ops : list op) : res buf :=
  match ops with
  | [] => Ok b
  | o :: r => bind (step b o) (fun b' => run b' r)
  end.

(** mtev_dyn_buffer.c:168-172 *)
Definition curl_write (b : buf) (ptr : list N) (sz nmemb : nat) : res (buf * nat) :=
  let n := w64 (sz * nmemb) in
  if Nat.leb n (length ptr)
  then bind (add b (firstn n ptr)) (fun b' => Ok (b', n)) else Ub.
