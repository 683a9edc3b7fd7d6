(** Model of the cardinality sketch of src/utils/mtev_hyperloglog.c.  XXH64 is a parameter. *)
From Coq Require Import Arith NArith List Bool.
Import ListNotations.
Local Open Scope N_scope.

(** struct mtev_hyperloglog, mtev_hyperloglog.c:10-14; size is the length of [regs] *)
Record hll := Hll { bitcount : N; regs : list N }.
(** mtev_hyperloglog_alloc, mtev_hyperloglog.c:31-46 *)
Definition alloc (b : N) : option hll :=
  if (b <? 4) || (20 <? b) then None else Some (Hll b (repeat 0 (N.to_nat (2 ^ b)))).

(** __builtin_clz on 32 bits; undefined at 0 *)
Definition clz (x : N) : option N := if x =? 0 then None else Some (31 - N.log2 x).
Fixpoint set_nth (i : nat) (v : N) (l : list N) : list N :=
  match l, i with
  | [], _ => []
  | _ :: r, O => v :: r
  | x :: r, S i => x :: set_nth i v r
  end.
(** mtev_hyperloglog_add, mtev_hyperloglog.c:55-82; [hash] is what XXH64 yields, cut to uint32_t (mtev_hash.c:51-53).
    None: undefined behaviour (clz of 0, a register outside the array, or a rank that does not fit uint8_t) *)
Definition add_hash (s : hll) (hash : N) : option hll :=
  let h := hash mod 2 ^ 32 in
  let index := N.to_nat (N.shiftr h (32 - bitcount s)) in                                     (* :62, 68 *)
  let h' := N.lor (N.shiftl h (bitcount s) mod 2 ^ 32) (2 ^ (bitcount s - 1)) in              (* :71 *)
  match clz h', nth_error (regs s) index with                                                 (* :74, 76 *)
  | Some z, Some y =>
      if 256 <=? z + 1 then None
      else if y <? z + 1 then Some (Hll (bitcount s) (set_nth index (z + 1) (regs s))) else Some s   (* :79-81 *)
  | _, _ => None
  end.
Definition add {D} (xxh : D -> N) (s : option hll) (d : D) : option hll :=
  match s with Some s => add_hash s (xxh d) | None => None end.
(** a history of additions *)
Definition adds {D} (xxh : D -> N) (b : N) (l : list D) : option hll := fold_left (add xxh) l (alloc b).

(** the integer part of mtev_hyperloglog_estimate, mtev_hyperloglog.c:84-98: the number of zero registers and int_sum;
    None: shift of an int by more than 30, or a sum that does not fit uint64_t *)
Definition numerator : N := 2 ^ 24.
Definition tally (r : option (N * N)) (x : N) : option (N * N) :=
  match r with
  | Some (z, sum) => if 30 <? x then None
                     else if 2 ^ 64 <=? sum + numerator / 2 ^ x then None
                     else Some ((if x =? 0 then z + 1 else z), sum + numerator / 2 ^ x)
  | None => None
  end.
Definition sums (s : hll) : option (N * N) := fold_left tally (regs s) (Some (0, 0)).
(** mtev_hyperloglog_size, mtev_hyperloglog.c:100-120: a function of bitcount and the two sums; the floating point
    part is a parameter.  None: division by zero in :102 (int_sum is 0), which makes the result not a number *)
Definition size {R} (float : N -> N -> N -> R) (s : hll) : option R :=
  match sums s with
  | Some (z, sum) => if sum =? 0 then None else Some (float (bitcount s) z sum)
  | None => None
  end.
