(** Model of src/modules/lua_bit.c: the bit library of Lua, as it is built for numbers that are
    doubles.  A number is an integer here, no fraction; the sum with the magic constant is exact
    from -2^51 to 2^51, and what a number outside of that comes to is not modelled (Out).  A shift
    by the width of the word and the negation of the least int are undefined in C: Out as well. *)
From Coq Require Import List ZArith NArith Bool.
Import ListNotations.
Open Scope Z_scope.

(** What is on the stack of Lua: a number, or a string that reads as one, or something else
    (lua_tonumber, lua_isnumber as lua_bit.c:62, 82 use them) *)
Inductive arg := Num (z : Z) | Thing.
(** lua_bit.c:83 luaL_error; Out: beyond the model or undefined *)
Inductive res (A : Type) := Ok (a : A) | Err | Out.
Arguments Ok {A} a. Arguments Err {A}. Arguments Out {A}.
(** lua_bit.c:83 luaL_error does not return *)
Definition bind {A B} (r : res A) (f : A -> res B) : res B :=
  match r with Ok a => f a | Err => Err | Out => Out end.
(** lua_bit.c:64 2^52 + 2^51 *)
Definition MAGIC : Z := 2 ^ 52 + 2 ^ 51.
(** lua_bit.c:65-69 the low 32 bits of a double; between 2^52 and 2^53 it is 2^52 plus its 52 bits *)
Definition low_word (d : Z) : Z := (d - 2 ^ 52) mod 2 ^ 32.
(** lua_bit.c:62 lua_tonumber: 0 for what is no number *)
Definition tonumber (a : arg) : Z := match a with Num z => z | Thing => 0 end.
(** lua_bit.c:82 lua_isnumber *)
Definition isnumber (a : arg) : bool := match a with Num _ => true | Thing => false end.
(** lua_bit.c:58-85 barg *)
Definition barg (a : arg) : res Z :=
  let d := tonumber a + MAGIC in
  if (d <? 2 ^ 52) || (2 ^ 53 <=? d) then Out
  else let b := low_word d in
       if (b =? 0) && negb (isnumber a) then Err else Ok b.
(** lua_bit.c:46 UBits: arithmetic of uint32_t *)
Definition ubits (z : Z) : Z := z mod 2 ^ 32.
(** lua_bit.c:45, 88 the cast to SBits that BRET makes *)
Definition sbits (z : Z) : Z := let b := ubits z in if b <? 2 ^ 31 then b else b - 2 ^ 32.
(** The [i]th place of the stack, lua_bit.c:62; a place beyond the top is no number *)
Definition at_ (l : list arg) (i : nat) : arg := nth (i - 1) l Thing.
(** lua_bit.c:90 bit_tobit *)
Definition bit_tobit (l : list arg) : res Z := bind (barg (at_ l 1)) (fun b => Ok (sbits b)).
(** lua_bit.c:91 bit_bnot *)
Definition bit_bnot (l : list arg) : res Z := bind (barg (at_ l 1)) (fun b => Ok (sbits (ubits (Z.lnot b)))).
(** lua_bit.c:95 the loop of BIT_OP, over the arguments from the top down to the second *)
Fixpoint op_loop (opr : Z -> Z -> Z) (b : Z) (l : list arg) : res Z :=
  match l with
  | [] => Ok (sbits b)
  | a :: l => bind (barg a) (fun c => op_loop opr (opr b c) l)
  end.
(** lua_bit.c:93-95 BIT_OP *)
Definition bit_op (opr : Z -> Z -> Z) (l : list arg) : res Z :=
  bind (barg (at_ l 1)) (fun b => op_loop opr b (rev (tl l))).
(** lua_bit.c:96-98 *)
Definition bit_band := bit_op Z.land.
Definition bit_bor := bit_op Z.lor. (** lua_bit.c:97 *)
Definition bit_bxor := bit_op Z.lxor. (** lua_bit.c:98 *)
(** C's shifts of a 32 bit word, lua_bit.c:100-104: undefined unless the count is below 32 *)
Definition shl (b n : Z) : res Z := if (0 <=? n) && (n <? 32) then Ok (ubits (Z.shiftl b n)) else Out.
Definition shr (b n : Z) : res Z := if (0 <=? n) && (n <? 32) then Ok (Z.shiftr b n) else Out. (** lua_bit.c:101-102 *)
(** lua_bit.c:100 bshl *)
Definition bshl (b n : Z) : res Z := shl b n.
(** lua_bit.c:101 bshr *)
Definition bshr (b n : Z) : res Z := shr b n.
(** lua_bit.c:102 bsar *)
Definition bsar (b n : Z) : res Z := shr (sbits b) n.
(** lua_bit.c:103 brol *)
Definition brol (b n : Z) : res Z := bind (shl b n) (fun x => bind (shr b (32 - n)) (fun y => Ok (Z.lor x y))).
(** lua_bit.c:104 bror *)
Definition bror (b n : Z) : res Z := bind (shl b (32 - n)) (fun x => bind (shr b n) (fun y => Ok (Z.lor x y))).
(** lua_bit.c:105-107 BIT_SH *)
Definition bit_sh (fn : Z -> Z -> res Z) (l : list arg) : res Z :=
  bind (barg (at_ l 1)) (fun b => bind (barg (at_ l 2)) (fun m =>
  let n := Z.land m 31 in bind (fn b n) (fun r => Ok (sbits r)))).
(** lua_bit.c:108-112 *)
Definition bit_lshift := bit_sh bshl.
Definition bit_rshift := bit_sh bshr. (** lua_bit.c:109 *)
Definition bit_arshift := bit_sh bsar. (** lua_bit.c:110 *)
Definition bit_rol := bit_sh brol. (** lua_bit.c:111 *)
Definition bit_ror := bit_sh bror. (** lua_bit.c:112 *)
(** lua_bit.c:114-119 bit_bswap *)
Definition bit_bswap (l : list arg) : res Z :=
  bind (barg (at_ l 1)) (fun b =>
  Ok (sbits (Z.lor (Z.lor (Z.lor (Z.shiftr b 24) (Z.land (Z.shiftr b 8) 65280))
                          (ubits (Z.shiftl (Z.land b 65280) 8))) (ubits (Z.shiftl b 24))))).
(** lua_bit.c:125, 128 hexdigits[d] *)
Definition hexdigit (upper : bool) (d : Z) : N :=
  if d <? 10 then (48 + Z.to_N d)%N else ((if upper then 55 else 87) + Z.to_N d)%N.
(** lua_bit.c:130 the loop, from the last digit to the first *)
Fixpoint hex_loop (upper : bool) (k : nat) (b : Z) (acc : list N) : list N :=
  match k with
  | O => acc
  | S k => hex_loop upper k (Z.shiftr b 4) (hexdigit upper (Z.land b 15) :: acc)
  end.
(** lua_bit.c:121-133 bit_tohex; minus the least int is undefined *)
Definition bit_tohex (l : list arg) : res (list N) :=
  bind (barg (at_ l 1)) (fun b =>
  bind (if (length l <? 2)%nat then Ok 8 else bind (barg (at_ l 2)) (fun m => Ok (sbits m))) (fun n =>
  if n =? - 2 ^ 31 then Out
  else let upper := n <? 0 in
       let n := if n <? 0 then - n else n in
       let n := if 8 <? n then 8 else n in
       Ok (hex_loop upper (Z.to_nat n) b []))).
