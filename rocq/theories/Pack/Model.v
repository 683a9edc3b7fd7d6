(** Model of string.pack and string.unpack (src/modules/lua_lpack.c). *)
From Coq Require Import ZArith NArith List Bool.
Import ListNotations.
Local Open Scope Z_scope.

Definition bytes := list N.
(** What the machine does with doubles and floats: truncation to an integer (None:
    not a number, infinite), conversion from one, the bytes in memory. *)
Record floats := mkfloats {
  dbl : Type;
  trunc : dbl -> option Z;
  of_int : Z -> dbl;
  dput : dbl -> bytes;
  dget : bytes -> dbl;
  fput : dbl -> bytes;
  fget : bytes -> dbl
}.
(** a Lua value on the stack *)
Inductive val (F : floats) := Num (x : dbl F) | Str (s : bytes) | Other.
Arguments Num {F} x. Arguments Str {F} s. Arguments Other {F}.
(** a call: its result, a Lua error, or undefined behaviour in C *)
Inductive out (A : Type) := Ok (a : A) | Err | Bad.
Arguments Ok {A} a. Arguments Err {A}. Arguments Bad {A}.
Definition bind {A B} (o : out A) (f : A -> out B) : out B :=
  match o with Ok a => f a | Err => Err | Bad => Bad end.

(** lua_lpack.c:11-29 the codes *)
Definition OP_ZSTRING : N := 122. (* z *)
Definition OP_BSTRING : N := 112. (* p *)
Definition OP_WSTRING : N := 80. (* P *)
Definition OP_SSTRING : N := 97. (* a *)
Definition OP_STRING : N := 65. (* A *)
Definition OP_FLOAT : N := 102. (* f *)
Definition OP_DOUBLE : N := 100. (* d *)
Definition OP_NUMBER : N := 110. (* n *)
Definition OP_CHAR : N := 99. (* c *)
Definition OP_BYTE : N := 98. (* b *)
Definition OP_SHORT : N := 104. (* h *)
Definition OP_USHORT : N := 72. (* H *)
Definition OP_INT : N := 105. (* i *)
Definition OP_UINT : N := 73. (* I *)
Definition OP_LONG : N := 108. (* l *)
Definition OP_ULONG : N := 76. (* L *)
Definition OP_LITTLEENDIAN : N := 60. (* < *)
Definition OP_BIGENDIAN : N := 62. (* > *)
Definition OP_NATIVE : N := 61. (* = *)
(** lua_lpack.c:160-161, 242-243 *)
Definition blank (c : N) : bool := ((c =? 32) || (c =? 44))%N.

(** lua_lpack.c:44-52 doendian; [little] is the host *)
Definition doendian (little : bool) (c : N) : bool :=
  if (c =? OP_LITTLEENDIAN)%N then negb little
  else if (c =? OP_BIGENDIAN)%N then little
  else false.
Definition is_endian (c : N) : bool :=
  ((c =? OP_LITTLEENDIAN) || (c =? OP_BIGENDIAN) || (c =? OP_NATIVE))%N.
(** lua_lpack.c:54-65 doswap *)
Definition doswap (swap : bool) (b : bytes) : bytes := if swap then rev b else b.

(** integers in memory *)
Fixpoint le (n : nat) (z : Z) : bytes :=
  match n with O => [] | S n => Z.to_N (z mod 256) :: le n (z / 256) end.
Fixpoint unle (b : bytes) : Z :=
  match b with [] => 0 | x :: r => Z.of_N x + 256 * unle r end.
Definition put_int (little : bool) (n : nat) (z : Z) : bytes := if little then le n z else rev (le n z).
Definition get_int (little sgn : bool) (b : bytes) : Z :=
  let u := unle (if little then b else rev b) in
  if sgn && (2 ^ (8 * Z.of_nat (length b) - 1) <=? u) then u - 2 ^ (8 * Z.of_nat (length b)) else u.
(** a double converted to an integer type: undefined if it does not fit *)
Definition in_type (sgn : bool) (n : nat) (z : Z) : bool :=
  if sgn then (- 2 ^ (8 * Z.of_nat n - 1) <=? z) && (z <? 2 ^ (8 * Z.of_nat n - 1))
  else (0 <=? z) && (z <? 2 ^ (8 * Z.of_nat n)).
(** lua_lpack.c:152-159, 234-241 the integer codes: signed, bytes (char is signed) *)
Definition int_code (c : N) : option (bool * nat) :=
  if (c =? OP_CHAR)%N then Some (true, 1%nat)
  else if (c =? OP_BYTE)%N then Some (false, 1%nat)
  else if (c =? OP_SHORT)%N then Some (true, 2%nat)
  else if (c =? OP_USHORT)%N then Some (false, 2%nat)
  else if (c =? OP_INT)%N then Some (true, 4%nat)
  else if (c =? OP_UINT)%N then Some (false, 4%nat)
  else if (c =? OP_LONG)%N then Some (true, 8%nat)
  else if (c =? OP_ULONG)%N then Some (false, 8%nat)
  else None.
(** lua_lpack.c:228-230 the length of a packed string: bytes *)
Definition pack_len_code (c : N) : option nat :=
  if (c =? OP_BSTRING)%N then Some 1%nat
  else if (c =? OP_WSTRING)%N then Some 2%nat
  else if (c =? OP_SSTRING)%N then Some 4%nat
  else None.
(** lua_lpack.c:146-148 the length of an unpacked one: signed, bytes *)
Definition unpack_len_code (c : N) : option (bool * nat) :=
  if (c =? OP_BSTRING)%N then Some (false, 1%nat)
  else if (c =? OP_WSTRING)%N then Some (true, 2%nat)
  else if (c =? OP_SSTRING)%N then Some (true, 4%nat)
  else None.

(** lua_lpack.c:106-115, 201-209 the format: codes with their counts; a C string *)
Definition digit (c : N) : bool := ((48 <=? c) && (c <=? 57))%N.
Fixpoint items_from (cur : N * option Z) (f : bytes) : list (N * option Z) :=
  match f with
  | [] => [cur]
  | x :: r =>
      if (x =? 0)%N then [cur]
      else if digit x
      then items_from (fst cur, Some (10 * match snd cur with Some n => n | None => 0 end + (Z.of_N x - 48))) r
      else cur :: items_from (x, None) r
  end.
Definition items (f : bytes) : list (N * option Z) :=
  match f with
  | [] => []
  | x :: r => if (x =? 0)%N then [] else items_from (x, None) r
  end.
Definition count (n : option Z) : Z := match n with Some n => n | None => 1 end.
Definition INT_MAX : Z := 2 ^ 31 - 1.

Section Lua.
Context (F : floats) (little : bool).
Notation value := (val F).

(** luaL_checknumber, luaL_checklstring *)
Definition check_number (a : list value) : out (dbl F * list value) :=
  match a with Num x :: r => Ok (x, r) | _ => Err end.
Definition check_string (a : list value) : out (bytes * list value) :=
  match a with Str s :: r => Ok (s, r) | _ => Err end.

(** lua_lpack.c:220-246 one value packed *)
Definition pack_one (swap : bool) (c : N) (a : list value) : out (bytes * list value) :=
  if ((c =? OP_STRING) || (c =? OP_ZSTRING))%N
  then bind (check_string a) (fun sr => Ok (fst sr ++ (if (c =? OP_ZSTRING)%N then [0%N] else []), snd sr))
  else
  match pack_len_code c with
  | Some n => bind (check_string a) (fun sr =>
                Ok (doswap swap (put_int little n (Z.of_nat (length (fst sr)))) ++ fst sr, snd sr))
  | None =>
  if ((c =? OP_NUMBER) || (c =? OP_DOUBLE))%N
  then bind (check_number a) (fun xr => Ok (doswap swap (dput F (fst xr)), snd xr))
  else if (c =? OP_FLOAT)%N
  then bind (check_number a) (fun xr => Ok (doswap swap (fput F (fst xr)), snd xr))
  else
  match int_code c with
  | Some (sgn, n) => bind (check_number a) (fun xr =>
      match trunc F (fst xr) with
      | Some z => if in_type sgn n z then Ok (doswap swap (put_int little n z), snd xr) else Bad
      | None => Bad
      end)
  | None => if blank c then Ok ([], a) else Err
  end end.
(** lua_lpack.c:210-247 a code with its count *)
Fixpoint pack_times (n : nat) (swap : bool) (c : N) (a : list value) : out (bytes * list value) :=
  match n with
  | O => Ok ([], a)
  | S n => bind (pack_one swap c a) (fun br =>
           bind (pack_times n swap c (snd br)) (fun br' => Ok (fst br ++ fst br', snd br')))
  end.
(** lua_lpack.c:201-250 *)
Fixpoint pack_items (swap : bool) (l : list (N * option Z)) (a : list value) : out bytes :=
  match l with
  | [] => Ok []
  | (c, k) :: l =>
      if INT_MAX <? count k then Bad
      else if is_endian c
      then pack_items (if count k =? 0 then swap else doendian little c) l a
      else bind (pack_times (Z.to_nat (count k)) swap c a) (fun br =>
           bind (pack_items swap l (snd br)) (fun b => Ok (fst br ++ b)))
  end.
(** lua_lpack.c:194-251 l_pack *)
Definition pack (f : bytes) (a : list value) : out bytes := pack_items false (items f) a.

(** ** Unpacking *)
(** what a code gives: a value and the position after it, nothing for a blank, the
    end of the string (goto done) *)
Inductive got := Val (v : value) (i : Z) | Nothing | Finish.
(** memcpy and lua_pushlstring at a position: Bad outside of the string, which is
    followed by a NUL *)
Definition slice (s : bytes) (i n : Z) : out bytes :=
  if (i <? 0) || (n <? 0) || (Z.of_nat (length s) <? i + n) then Bad
  else Ok (firstn (Z.to_nat n) (skipn (Z.to_nat i) s)).
(** strlen *)
Fixpoint strlen (s : bytes) : nat :=
  match s with [] => O | x :: r => if (x =? 0)%N then O else S (strlen r) end.
(** lua_lpack.c:67-95, 136-164 *)
Definition unpack_one (s : bytes) (swap : bool) (c : N) (i : Z) : out got :=
  let len := Z.of_nat (length s) in
  if (c =? OP_ZSTRING)%N
  then if len <=? i then Ok Finish
       else if i <? 0 then Bad
       else let l := Z.of_nat (strlen (skipn (Z.to_nat i) s)) in
            bind (slice s i l) (fun b => Ok (Val (Str b) (i + l + 1)))
  else
  match unpack_len_code c with
  | Some (sgn, n) =>
      let m := Z.of_nat n in
      if len <? i + m then Ok Finish
      else bind (slice s i m) (fun b =>
           let l := get_int little sgn (doswap swap b) in
           if INT_MAX <? i + m + l then Bad
           else if len <? i + m + l then Ok Finish
           else bind (slice s (i + m) l) (fun b => Ok (Val (Str b) (i + m + l))))
  | None =>
  if ((c =? OP_NUMBER) || (c =? OP_DOUBLE))%N
  then if len <? i + 8 then Ok Finish
       else bind (slice s i 8) (fun b => Ok (Val (Num (dget F (doswap swap b))) (i + 8)))
  else if (c =? OP_FLOAT)%N
  then if len <? i + 4 then Ok Finish
       else bind (slice s i 4) (fun b => Ok (Val (Num (fget F (doswap swap b))) (i + 4)))
  else
  match int_code c with
  | Some (sgn, n) =>
      let m := Z.of_nat n in
      if len <? i + m then Ok Finish
      else bind (slice s i m) (fun b => Ok (Val (Num (of_int F (get_int little sgn (doswap swap b)))) (i + m)))
  | None => if blank c then Ok Nothing else Err
  end end.
(** lua_lpack.c:116-165 a code with its count: the values, the position, whether it
    was the end *)
Fixpoint unpack_times (n : nat) (s : bytes) (swap : bool) (c : N) (i : Z) : out (list value * Z * bool) :=
  match n with
  | O => Ok ([], i, false)
  | S n => bind (unpack_one s swap c i) (fun g =>
           match g with
           | Finish => Ok ([], i, true)
           | Nothing => unpack_times n s swap c i
           | Val v i => bind (unpack_times n s swap c i) (fun r => Ok (v :: fst (fst r), snd (fst r), snd r))
           end)
  end.
(** lua_lpack.c:126-135 a string of the length given as count *)
Definition unpack_string (k : Z) (s : bytes) (i : Z) : out (list value * Z * bool) :=
  if k =? 0 then Ok ([Str []], i, false)
  else if INT_MAX <? i + k then Bad
  else if Z.of_nat (length s) <? i + k then Ok ([], i, true)
  else bind (slice s i k) (fun b => Ok ([Str b], i + k, false)).
(** lua_lpack.c:106-170 *)
Fixpoint unpack_items (s : bytes) (swap : bool) (l : list (N * option Z)) (i : Z) : out (Z * list value) :=
  match l with
  | [] => Ok (i + 1, [])
  | (c, k) :: l =>
      if INT_MAX <? count k then Bad
      else if is_endian c
      then unpack_items s (if count k =? 0 then swap else doendian little c) l i
      else bind (if (c =? OP_STRING)%N then unpack_string (count k) s i
                 else unpack_times (Z.to_nat (count k)) s swap c i) (fun r =>
           if snd r then Ok (snd (fst r) + 1, fst (fst r))
           else bind (unpack_items s swap l (snd (fst r))) (fun q => Ok (fst q, fst (fst r) ++ snd q)))
  end.
(** lua_lpack.c:97-171 l_unpack: the position and the values; [init] is 1 if not given *)
Definition unpack (s f : bytes) (init : Z) : out (Z * list value) :=
  unpack_items s false (items f) (init - 1).
End Lua.
