(** Model of src/json-lib: the JSON objects and their serialised form
    (mtev_json_object.c) and the incremental parser (mtev_json_tokener.c). *)
From Coq Require Import NArith ZArith List Bool.
Import ListNotations.
Local Open Scope N_scope.

(** A character string without its terminating NUL, or a piece of input. *)
Definition bytes := list N.

(** * Objects *)

(** mtev_json_object.h mtev_json_int_overflow: which field of an integer object
    is printed. *)
Inductive ovf := Ov_int | Ov_int64 | Ov_uint64.

(** internal_object_private.h:27-46 struct mtev_json_object. NULL is the JSON
    null. An integer has c_int, o_ioverflow and the 64 bits of the union
    overflow (0 .. 2^64-1). A double is its 64 bit pattern. The linkhash table
    of an object is the list of its entries from head to tail (the table itself
    is the subject of the module Linkh), the arraylist of an array the list of
    its elements. Reference counts are left out: objects are values here. *)
Inductive jv :=
| JNull
| JBool (b : bool)
| JInt (c_int : Z) (o_ioverflow : ovf) (overflow : Z)
| JDbl (d : N)
| JStr (s : bytes)
| JArr (l : list jv)
| JObj (l : list (bytes * jv)).

(** The C library functions whose result the code passes on. *)
Record env := mkenv {
  (** sscanf "%lf" (mtev_json_tokener.c:534): the double, if one was read *)
  scan_lf : bytes -> option N;
  (** the int stored by sscanf "%d" (mtev_json_tokener.c:518) when the digits
      denote a number that is no int *)
  scan_d_wide : Z -> Z;
  (** isnan or isinf, and printf "%lf" (mtev_json_object.c:433-436) *)
  not_finite : N -> bool;
  print_lf : N -> bytes }.

Definition int_min : Z := (-2147483648)%Z. (* limits.h INT_MIN *)
Definition int_max : Z := 2147483647%Z. (* limits.h INT_MAX *)
Definition two64 : Z := 18446744073709551616%Z. (* the unsigned 64 bit range *)
Definition i64_max : Z := 9223372036854775807%Z. (* stdint.h INT64_MAX *)
Definition i64_min : Z := (-9223372036854775808)%Z. (* stdint.h INT64_MIN *)

(** The 64 bits of the union read as int64_t (internal_object_private.h:41-44). *)
Definition as_i64 (w : Z) : Z := if (w <=? i64_max)%Z then w else (w - two64)%Z.

(** mtev_json_object.c:353-361 mtev_json_object_new_int (calloc clears the rest) *)
Definition new_int (i : Z) : jv := JInt i Ov_int 0.
(** mtev_json_object.c:372-379, 402-405 mtev_json_object_new_int64 *)
Definition new_int64 (i : Z) : jv := JInt 0 Ov_int64 (i mod two64).
(** mtev_json_object.c:381-388, 394-397 mtev_json_object_new_uint64 *)
Definition new_uint64 (i : Z) : jv := JInt 0 Ov_uint64 i.

(** mtev_json_object.c:398-401 mtev_json_object_get_int64, of an integer *)
Definition get_int64 (v : jv) : Z := match v with JInt _ _ w => as_i64 w | _ => 0%Z end.
(** mtev_json_object.c:390-393 mtev_json_object_get_uint64, of an integer *)
Definition get_uint64 (v : jv) : Z := match v with JInt _ _ w => w | _ => 0%Z end.
(** mtev_json_object.c:407-425 mtev_json_object_get_int; the conversions of a
    double and of a string are left out (0 here) *)
Definition get_int (v : jv) : Z :=
  match v with JInt i _ _ => i | JBool b => if b then 1%Z else 0%Z | _ => 0%Z end.
(** mtev_json_object.c:448-466 mtev_json_object_get_double of an integer: the
    double nearest to this number, which is exact for an int *)
Definition get_double_of_int (v : jv) : Z :=
  match v with JInt i _ _ => i | JBool b => if b then 1%Z else 0%Z | _ => 0%Z end.
(** mtev_json_object.c:323-338 mtev_json_object_get_boolean; a double is zero
    when all its bits but the sign are *)
Definition get_boolean (v : jv) : bool :=
  match v with
  | JBool b => b
  | JInt i _ _ => negb (i =? 0)%Z
  | JDbl d => negb (d mod 9223372036854775808 =? 0)
  | JStr s => negb (N.of_nat (length s) =? 0)
  | _ => false
  end.

(** mtev_json_object.c:287-292 mtev_json_object_object_add: delete the entry of
    that key, then append *)
Definition object_add (l : list (bytes * jv)) (k : bytes) (v : jv) : list (bytes * jv) :=
  filter (fun e => negb (if list_eq_dec N.eq_dec (fst e) k then true else false)) l ++ [(k, v)].

(** * Serialising *)

(** mtev_json_object.c:37 mtev_json_hex_chars *)
Definition hex_chars : bytes := [48;49;50;51;52;53;54;55;56;57;97;98;99;100;101;102].

(** mtev_json_object.c:96-124: what one character of a string becomes *)
Definition escape_char (c : N) : bytes :=
  if c =? 8 then [92; 98]
  else if c =? 10 then [92; 110]
  else if c =? 13 then [92; 114]
  else if c =? 9 then [92; 116]
  else if c =? 34 then [92; 34]
  else if c =? 92 then [92; 92]
  else if c =? 47 then [92; 47]
  else if c <? 32 then
    [92; 117; 48; 48; nth (N.to_nat (c / 16)) hex_chars 0; nth (N.to_nat (c mod 16)) hex_chars 0]
  else [c].

(** mtev_json_object.c:88-129 mtev_json_escape_str, up to the NUL. The runs of
    plain characters appended at once are appended one by one. *)
Fixpoint escape_str (s : bytes) : bytes :=
  match s with
  | [] => []
  | c :: s' => escape_char c ++ escape_str s'
  end.

(** The decimal digits of n (printf "%d", "%lld", "%llu"), least first. *)
Fixpoint digits_rev (fuel : nat) (n : N) : bytes :=
  match fuel with
  | 0%nat => []
  | S f => (48 + n mod 10) :: (if n / 10 =? 0 then [] else digits_rev f (n / 10))
  end.
(** printf of an integer (mtev_json_object.c:347-350) *)
Definition print_int (z : Z) : bytes :=
  (if (z <? 0)%Z then [45] else []) ++ rev (digits_rev 20 (Z.to_N (Z.abs z))).

(** mtev_json_object.c:343-351 mtev_json_object_int_to_json_string: the number
    that is printed *)
Definition printed_int (i : Z) (o : ovf) (w : Z) : Z :=
  match o with Ov_uint64 => w | Ov_int64 => as_i64 w | Ov_int => i end.

(** mtev_json_object.c:197-207 to_json_string and the functions it dispatches
    to: 212-232 objects, 307-312 booleans, 343-351 integers, 430-437 doubles,
    471-478 strings, 520-535 arrays. The printbuf is its contents. *)
Fixpoint to_json (e : env) (v : jv) : bytes :=
  match v with
  | JNull => [110; 117; 108; 108]
  | JBool true => [116; 114; 117; 101]
  | JBool false => [102; 97; 108; 115; 101]
  | JInt i o w => print_int (printed_int i o w)
  | JDbl d => if not_finite e d then [110; 117; 108; 108] else print_lf e d
  | JStr s => [34] ++ escape_str s ++ [34]
  | JArr l =>
      [91] ++
      (fix go (first : bool) (l : list jv) : bytes :=
         match l with
         | [] => []
         | x :: l' => (if first then [32] else [44; 32]) ++ to_json e x ++ go false l'
         end) true l
      ++ [32; 93]
  | JObj l =>
      [123] ++
      (fix go (first : bool) (l : list (bytes * jv)) : bytes :=
         match l with
         | [] => []
         | (k, x) :: l' =>
             (if first then [] else [44]) ++ [32; 34] ++ escape_str k ++ [34; 58; 32]
             ++ to_json e x ++ go false l'
         end) true l
      ++ [32; 125]
  end.

(** * The parser *)

(** mtev_json_tokener.h:24-39 enum mtev_json_tokener_error *)
Inductive terr :=
| E_success | E_continue | E_depth | E_eof | E_unexpected | E_null | E_boolean
| E_number | E_array | E_key_name | E_key_sep | E_value_sep | E_string | E_comment.

(** mtev_json_tokener.h:41-64 enum mtev_json_tokener_state *)
Inductive tstate :=
| S_eatws | S_start | S_finish | S_null | S_comment_start | S_comment
| S_comment_eol | S_comment_end | S_string | S_string_escape | S_escape_unicode
| S_boolean | S_number | S_array | S_array_add | S_array_sep
| S_object_field_start | S_object_field | S_object_field_end | S_object_value
| S_object_value_add | S_object_sep.

(** mtev_json_tokener.h:74 *)
Definition MAX_DEPTH : nat := 32.

(** mtev_json_tokener.h:66-72 struct mtev_json_tokener_srec; its field obj is
    never used. *)
Record frame := mkf {
  state : tstate;
  saved : tstate;
  current : jv;
  field_name : option bytes }.

(** mtev_json_tokener.h:76-86 struct mtev_json_tokener: stack[depth] and the
    levels below it, nearest first; pb is the contents of the printbuf. The
    character offset is in the result of a call. *)
Record tok := mkt {
  top : frame;
  below : list frame;
  pb : bytes;
  is_double : bool;
  st_pos : nat;
  ucs_char : N;
  quote_char : N;
  err : terr;
  started : bool }.

(** mtev_json_tokener.c:76-87 mtev_json_tokener_reset_level: the level left by it *)
Definition fresh : frame := mkf S_eatws S_start JNull None.
(** mtev_json_tokener.c:56-65 mtev_json_tokener_new *)
Definition tok_new : tok := mkt fresh [] [] false 0 0 0 E_success false.
(** mtev_json_tokener.c:89-100 mtev_json_tokener_reset: what is not reset stays *)
Definition tok_reset (t : tok) : tok :=
  mkt fresh [] (pb t) (is_double t) (st_pos t) (ucs_char t) (quote_char t) E_success false.

(** tok->depth (mtev_json_tokener.h:80) *)
Definition depth (t : tok) : nat := length (below t).

(** Assignments to fields of the parser and of its top level
    (mtev_json_tokener.c:143-146 the macros state, saved_state, current,
    obj_field_name). *)
Definition set_top (t : tok) (f : frame) : tok :=
  mkt f (below t) (pb t) (is_double t) (st_pos t) (ucs_char t) (quote_char t) (err t) (started t).
Definition set_state (t : tok) (s : tstate) : tok := (* mtev_json_tokener.c:143 *)
  set_top t (mkf s (saved (top t)) (current (top t)) (field_name (top t))).
Definition set_saved (t : tok) (s : tstate) : tok := (* mtev_json_tokener.c:144 *)
  set_top t (mkf (state (top t)) s (current (top t)) (field_name (top t))).
Definition set_current (t : tok) (v : jv) : tok := (* mtev_json_tokener.c:145 *)
  set_top t (mkf (state (top t)) (saved (top t)) v (field_name (top t))).
Definition set_field (t : tok) (n : option bytes) : tok := (* mtev_json_tokener.c:146 *)
  set_top t (mkf (state (top t)) (saved (top t)) (current (top t)) n).
Definition set_pb (t : tok) (b : bytes) : tok := (* mtev_json_tokener.h:79 pb *)
  mkt (top t) (below t) b (is_double t) (st_pos t) (ucs_char t) (quote_char t) (err t) (started t).
Definition set_double (t : tok) (b : bool) : tok := (* mtev_json_tokener.h:80 is_double *)
  mkt (top t) (below t) (pb t) b (st_pos t) (ucs_char t) (quote_char t) (err t) (started t).
Definition set_pos (t : tok) (n : nat) : tok := (* mtev_json_tokener.h:80 st_pos *)
  mkt (top t) (below t) (pb t) (is_double t) n (ucs_char t) (quote_char t) (err t) (started t).
Definition set_ucs (t : tok) (n : N) : tok := (* mtev_json_tokener.h:82 ucs_char *)
  mkt (top t) (below t) (pb t) (is_double t) (st_pos t) n (quote_char t) (err t) (started t).
Definition set_quote (t : tok) (n : N) : tok := (* mtev_json_tokener.h:83 quote_char *)
  mkt (top t) (below t) (pb t) (is_double t) (st_pos t) (ucs_char t) n (err t) (started t).
Definition set_err (t : tok) (x : terr) : tok := (* mtev_json_tokener.h:81 err *)
  mkt (top t) (below t) (pb t) (is_double t) (st_pos t) (ucs_char t) (quote_char t) x (started t).
Definition set_started (t : tok) : tok := (* mtev_json_tokener.h:85 started *)
  mkt (top t) (below t) (pb t) (is_double t) (st_pos t) (ucs_char t) (quote_char t) (err t) true.

(** jl_printbuf_memappend_fast (internal_printbuf.h:44-51) *)
Definition append (t : tok) (b : bytes) : tok := set_pb t (pb t ++ b).

(** isspace in the C locale (mtev_json_tokener.c:207, 233) *)
Definition isspace (c : N) : bool := (c =? 32) || ((9 <=? c) && (c <=? 13)).

(** strchr(mtev_json_number_chars, c) (mtev_json_tokener.c:504,
    mtev_json_object.c:36) *)
Definition number_char (c : N) : bool :=
  ((48 <=? c) && (c <=? 57)) || (c =? 46) || (c =? 43) || (c =? 45) || (c =? 101) || (c =? 69).

(** strchr(mtev_json_hex_chars, c) (mtev_json_tokener.c:445): it also finds the
    terminating NUL *)
Definition hex_or_nul (c : N) : bool := existsb (N.eqb c) hex_chars || (c =? 0).

(** mtev_json_tokener.c:32 hexdigit, as an unsigned int *)
Definition hexdigit (c : N) : N :=
  if c <=? 57 then (if c <? 48 then 4294967296 + c - 48 else c - 48) else N.land c 7 + 9.

(** tolower in the C locale, as strncasecmp uses it *)
Definition lower (c : N) : N := if (65 <=? c) && (c <=? 90) then c + 32 else c.

(** strncasecmp(lit, buf, n) == 0 (mtev_json_tokener.c:313, 476, 484), n not
    above strlen(lit) *)
Fixpoint casecmp (n : nat) (lit buf : bytes) : bool :=
  match n with
  | 0%nat => true
  | S n' =>
      match lit, buf with
      | a :: lit', b :: buf' => (lower a =? lower b) && casecmp n' lit' buf'
      | _, _ => false
      end
  end.

(** mtev_json_tokener.c:34-36 *)
Definition null_str : bytes := [110; 117; 108; 108].
Definition true_str : bytes := [116; 114; 117; 101]. (* mtev_json_tokener.c:35 *)
Definition false_str : bytes := [102; 97; 108; 115; 101]. (* mtev_json_tokener.c:36 *)

(** The C string at the start of a buffer: what strdup (mtev_json_object.c:492,
    mtev_json_tokener.c:603) copies. *)
Fixpoint cstr (b : bytes) : bytes :=
  match b with
  | [] => []
  | c :: b' => if c =? 0 then [] else c :: cstr b'
  end.

(** mtev_json_tokener.c:449-464: the bytes appended for a 16 bit escape *)
Definition utf_out (u : N) : bytes :=
  if u <? 128 then [u]
  else if u <? 2048 then [N.lor 192 (N.shiftr u 6) mod 256; N.lor 128 (N.land u 63)]
  else [N.lor 224 (N.shiftr u 12) mod 256; N.lor 128 (N.land (N.shiftr u 6) 63);
        N.lor 128 (N.land u 63)].

(** The digits at the start of a string and the number they denote (sscanf "%d",
    strtoll, strtoull). *)
Fixpoint lead_digits (b : bytes) : bytes :=
  match b with
  | c :: b' => if (48 <=? c) && (c <=? 57) then c :: lead_digits b' else []
  | [] => []
  end.
(** The number denoted by digits, after acc (strtoull). *)
Fixpoint digits_val (acc : Z) (b : bytes) : Z :=
  match b with
  | [] => acc
  | c :: b' => digits_val (acc * 10 + (Z.of_N c - 48))%Z b'
  end.
(** An optional sign and digits, at least one (sscanf "%d" returns 1 just if
    there are; mtev_json_tokener.c:518). *)
Definition lead_int (b : bytes) : option Z :=
  let '(sg, r) := match b with
                  | 45 :: r => ((-1)%Z, r)
                  | 43 :: r => (1%Z, r)
                  | _ => (1%Z, b)
                  end in
  match lead_digits r with
  | [] => None
  | d => Some (sg * digits_val 0 d)%Z
  end.

(** mtev_json_tokener.c:515-539: the object a complete number becomes *)
Definition number_object (e : env) (dbl : bool) (b : bytes) : option jv :=
  if dbl then option_map JDbl (scan_lf e b)
  else
    match lead_int b with
    | None => None
    | Some z =>
        let numi := if (int_min <=? z)%Z && (z <=? int_max)%Z then z else scan_d_wide e z in
        if (match b with 45 :: _ => true | _ => false end) then
          let i64 := Z.max i64_min z in                  (* strtoll saturates *)
          Some (JInt numi (if (i64 =? numi)%Z then Ov_int else Ov_int64) (i64 mod two64)%Z)
        else
          let u64 := Z.min (two64 - 1) z in              (* strtoull saturates *)
          Some (JInt numi
                  (if (numi <? 0)%Z || negb (u64 =? numi)%Z then Ov_uint64 else Ov_int) u64)
    end.

(** What one pass through the switch (mtev_json_tokener.c:229-661) ends with:
    break with c at str and rest after it; goto redo_char; goto out, with the
    last character read and the input not passed over; a read beyond the
    terminating NUL; a NULL or ill-typed object dereferenced; more
    passes than redo_char below counts. *)
Inductive outcome :=
| Brk (t : tok) (obj : jv) (c : N) (rest : bytes)
| Redo (t : tok) (obj : jv) (c : N) (rest : bytes)
| Out (t : tok) (c : N) (rest : bytes)
| Overread
| BadObject
| TooLong.

(** mtev_json_tokener.c:166-174 POP_CHAR when the input is used up: the error
    set. With len -1 there is no end but the NUL. *)
Definition pop_fail (bounded : bool) (t : tok) (c : N) : outcome :=
  if bounded then
    Out (set_err t
           (match below t, state (top t), saved (top t) with
            | [], S_eatws, S_finish => E_success
            | _, _, _ => E_continue
            end)) c []
  else Overread.

(** How one of the tight loops ends: at a character looked for, after a NUL, or
    with the input used up. *)
Inductive scan_end := Hit (c : N) (rest : bytes) | Nul (rest : bytes) | End (c : N).

(** mtev_json_tokener.c:344-349, 359-364, 385-402, 504-511, 599-616: advance to
    a character for which stop holds; what was passed over. *)
Fixpoint scan (stop : N -> bool) (c : N) (rest : bytes) : bytes * scan_end :=
  if stop c then ([], Hit c rest)
  else if c =? 0 then ([c], Nul rest)
  else match rest with
       | [] => ([c], End c)
       | c' :: rest' => let (s, x) := scan stop c' rest' in (c :: s, x)
       end.

(** mtev_json_tokener.c:442-471: the loop over the digits of a 16 bit escape *)
Fixpoint unicode (bounded : bool) (t : tok) (obj : jv) (c : N) (rest : bytes) : outcome :=
  if hex_or_nul c then
    let u := (ucs_char t + N.shiftl (hexdigit c) (N.of_nat ((3 - st_pos t) * 4))) mod 4294967296 in
    let t := set_pos (set_ucs t u) (S (st_pos t)) in
    if Nat.eqb (st_pos t) 4 then
      let t := append t (utf_out (ucs_char t)) in
      Brk (set_state t (saved (top t))) obj c rest
    else if c =? 0 then Out t c rest
    else match rest with
         | [] => pop_fail bounded t c
         | c' :: rest' => unicode bounded t obj c' rest'
         end
  else Out (set_err t E_string) c (c :: rest).

(** mtev_json_tokener.c:229-661: the switch *)
Definition switch (e : env) (bounded : bool) (t : tok) (obj : jv) (c : N) (rest : bytes) : outcome :=
  match state (top t) with
  | S_eatws =>                                                   (* 231-245 *)
      match scan (fun c => negb (isspace c)) c rest with
      | (_, Hit c rest) =>
          if c =? 47 then Brk (set_state (set_pb t [c]) S_comment_start) obj c rest
          else Redo (set_state t (saved (top t))) obj c rest
      | (_, Nul rest) => Out t 0 rest
      | (_, End c) => pop_fail bounded t c
      end
  | S_start =>                                                   (* 247-302 *)
      if c =? 123 then
        Brk (set_current (set_saved (set_state t S_eatws) S_object_field_start) (JObj [])) obj c rest
      else if c =? 91 then
        Brk (set_current (set_saved (set_state t S_eatws) S_array) (JArr [])) obj c rest
      else if (c =? 78) || (c =? 110) then
        Redo (set_pos (set_pb (set_state t S_null) []) 0) obj c rest
      else if (c =? 34) || (c =? 39) then
        Brk (set_quote (set_pb (set_state t S_string) []) c) obj c rest
      else if (c =? 84) || (c =? 116) || (c =? 70) || (c =? 102) then
        Redo (set_pos (set_pb (set_state t S_boolean) []) 0) obj c rest
      else if ((48 <=? c) && (c <=? 57)) || (c =? 45) then
        Redo (set_double (set_pb (set_state t S_number) []) false) obj c rest
      else Out (set_err t E_unexpected) c (c :: rest)
  | S_finish =>                                                  (* 304-309 *)
      match below t with
      | [] => Out t c (c :: rest)
      | f :: fs =>
          Redo (mkt f fs (pb t) (is_double t) (st_pos t) (ucs_char t) (quote_char t) (err t) (started t))
               (current (top t)) c rest
      end
  | S_null =>                                                    (* 311-326 *)
      let t := append t [c] in
      if casecmp (Nat.min (st_pos t + 1) 4) null_str (pb t) then
        if Nat.eqb (st_pos t) 4 then
          Redo (set_state (set_saved (set_current t JNull) S_finish) S_eatws) obj c rest
        else Brk (set_pos t (S (st_pos t))) obj c rest
      else Out (set_err t E_null) c (c :: rest)
  | S_comment_start =>                                           (* 328-338 *)
      if c =? 42 then Brk (append (set_state t S_comment) [c]) obj c rest
      else if c =? 47 then Brk (append (set_state t S_comment_eol) [c]) obj c rest
      else Out (set_err t E_comment) c (c :: rest)
  | S_comment =>                                                 (* 340-353 *)
      match scan (fun c => c =? 42) c rest with
      | (s, Hit c rest) => Brk (set_state (append t (s ++ [c])) S_comment_end) obj c rest
      | (s, Nul rest) => Out (append t s) 0 rest
      | (s, End c) => pop_fail bounded (append t s) c
      end
  | S_comment_eol =>                                             (* 355-369 *)
      match scan (fun c => c =? 10) c rest with
      | (s, Hit c rest) => Brk (set_state (append t s) S_eatws) obj c rest
      | (s, Nul rest) => Out (append t s) 0 rest
      | (s, End c) => pop_fail bounded (append t s) c
      end
  | S_comment_end =>                                             (* 371-379 *)
      let t := append t [c] in
      if c =? 47 then Brk (set_state t S_eatws) obj c rest
      else Brk (set_state t S_comment) obj c rest
  | S_string =>                                                  (* 381-404 *)
      match scan (fun c => (c =? quote_char t) || (c =? 92)) c rest with
      | (s, Hit c rest) =>
          let t := append t s in
          if c =? quote_char t then
            Brk (set_state (set_saved (set_current t (JStr (cstr (pb t)))) S_finish) S_eatws) obj c rest
          else Brk (set_state (set_saved t S_string) S_string_escape) obj c rest
      | (s, Nul rest) => Out (append t s) 0 rest
      | (s, End c) => pop_fail bounded (append t s) c
      end
  | S_string_escape =>                                           (* 406-433 *)
      if (c =? 34) || (c =? 92) || (c =? 47) then
        Brk (set_state (append t [c]) (saved (top t))) obj c rest
      else if c =? 98 then Brk (set_state (append t [8]) (saved (top t))) obj c rest
      else if c =? 110 then Brk (set_state (append t [10]) (saved (top t))) obj c rest
      else if c =? 114 then Brk (set_state (append t [13]) (saved (top t))) obj c rest
      else if c =? 116 then Brk (set_state (append t [9]) (saved (top t))) obj c rest
      else if c =? 117 then Brk (set_state (set_pos (set_ucs t 0) 0) S_escape_unicode) obj c rest
      else Out (set_err t E_string) c (c :: rest)
  | S_escape_unicode => unicode bounded t obj c rest             (* 435-472 *)
  | S_boolean =>                                                 (* 474-497 *)
      let t := append t [c] in
      if casecmp (Nat.min (st_pos t + 1) 4) true_str (pb t) then
        if Nat.eqb (st_pos t) 4 then
          Redo (set_state (set_saved (set_current t (JBool true)) S_finish) S_eatws) obj c rest
        else Brk (set_pos t (S (st_pos t))) obj c rest
      else if casecmp (Nat.min (st_pos t + 1) 5) false_str (pb t) then
        if Nat.eqb (st_pos t) 5 then
          Redo (set_state (set_saved (set_current t (JBool false)) S_finish) S_eatws) obj c rest
        else Brk (set_pos t (S (st_pos t))) obj c rest
      else Out (set_err t E_boolean) c (c :: rest)
  | S_number =>                                                  (* 499-544 *)
      let (s, x) := scan (fun c => (c =? 0) || negb (number_char c)) c rest in
      let t := set_double t (is_double t || existsb (fun c => (c =? 46) || (c =? 101)) s) in
      let t := append t s in
      match x with
      | Hit c rest =>
          match number_object e (is_double t) (pb t) with
          | Some v => Redo (set_state (set_saved (set_current t v) S_finish) S_eatws) obj c rest
          | None => Out (set_err t E_number) c (c :: rest)
          end
      | Nul rest => Out t 0 rest
      | End c => pop_fail bounded t c
      end
  | S_array =>                                                   (* 546-560 *)
      if c =? 93 then Brk (set_state (set_saved t S_finish) S_eatws) obj c rest
      else if Nat.leb (MAX_DEPTH - 1) (depth t) then Out (set_err t E_depth) c (c :: rest)
      else
        let t := set_state t S_array_add in
        Redo (mkt fresh (top t :: below t) (pb t) (is_double t) (st_pos t) (ucs_char t)
                (quote_char t) (err t) (started t)) obj c rest
  | S_array_add =>                                               (* 562-566 *)
      match current (top t) with
      | JArr l => Redo (set_state (set_saved (set_current t (JArr (l ++ [obj]))) S_array_sep) S_eatws) obj c rest
      | _ => BadObject
      end
  | S_array_sep =>                                               (* 568-579 *)
      if c =? 93 then Brk (set_state (set_saved t S_finish) S_eatws) obj c rest
      else if c =? 44 then Brk (set_state (set_saved t S_array) S_eatws) obj c rest
      else Out (set_err t E_array) c (c :: rest)
  | S_object_field_start =>                                      (* 581-593 *)
      if c =? 125 then Brk (set_state (set_saved t S_finish) S_eatws) obj c rest
      else if (c =? 34) || (c =? 39) then
        Brk (set_state (set_pb (set_quote t c) []) S_object_field) obj c rest
      else Out (set_err t E_key_name) c (c :: rest)
  | S_object_field =>                                            (* 595-618 *)
      match scan (fun c => (c =? quote_char t) || (c =? 92)) c rest with
      | (s, Hit c rest) =>
          let t := append t s in
          if c =? quote_char t then
            Brk (set_state (set_saved (set_field t (Some (cstr (pb t)))) S_object_field_end) S_eatws) obj c rest
          else Brk (set_state (set_saved t S_object_field) S_string_escape) obj c rest
      | (s, Nul rest) => Out (append t s) 0 rest
      | (s, End c) => pop_fail bounded (append t s) c
      end
  | S_object_field_end =>                                        (* 620-628 *)
      if c =? 58 then Brk (set_state (set_saved t S_object_value) S_eatws) obj c rest
      else Out (set_err t E_key_sep) c (c :: rest)
  | S_object_value =>                                            (* 630-638 *)
      if Nat.leb (MAX_DEPTH - 1) (depth t) then Out (set_err t E_depth) c (c :: rest)
      else
        let t := set_state t S_object_value_add in
        Redo (mkt fresh (top t :: below t) (pb t) (is_double t) (st_pos t) (ucs_char t)
                (quote_char t) (err t) (started t)) obj c rest
  | S_object_value_add =>                                        (* 640-646 *)
      match current (top t), field_name (top t) with
      | JObj l, Some k =>
          Redo (set_state (set_saved (set_field (set_current t (JObj (object_add l k obj))) None)
                             S_object_sep) S_eatws) obj c rest
      | _, _ => BadObject
      end
  | S_object_sep =>                                              (* 648-659 *)
      if c =? 125 then Brk (set_state (set_saved t S_finish) S_eatws) obj c rest
      else if c =? 44 then Brk (set_state (set_saved t S_object_field_start) S_eatws) obj c rest
      else Out (set_err t E_value_sep) c (c :: rest)
  end.

(** mtev_json_tokener.c:228-661 from redo_char to the end of the switch. The
    passes are counted; [TooLong] is excluded by the theorems. *)
Fixpoint redo_char (n : nat) (e : env) (bounded : bool) (t : tok) (obj : jv) (c : N) (rest : bytes) : outcome :=
  match n with
  | 0%nat => TooLong
  | S n' =>
      match switch e bounded t obj c rest with
      | Redo t obj c rest => redo_char n' e bounded t obj c rest
      | x => x
      end
  end.

(** mtev_json_tokener.c:227-664 the main loop; c is the character read last.
    Each turn passes over a character, so n bounds the turns by the length of
    the input. *)
Fixpoint main_loop (n : nat) (e : env) (bounded : bool) (t : tok) (obj : jv) (c : N) (inp : bytes) : outcome :=
  match n, inp with
  | _, [] => pop_fail bounded t c
  | 0%nat, _ => TooLong
  | S n', c :: rest =>
      match redo_char 12 e bounded t obj c rest with
      | Brk t obj c rest => if c =? 0 then Out t c rest else main_loop n' e bounded t obj c rest
      | x => x
      end
  end.

(** What mtev_json_tokener_parse_ex gives back: the parser, the object if NULL
    is not returned for an error, and the input not passed over (char_offset is
    the length of the rest); or it went wrong. *)
Inductive result :=
| Ret (t : tok) (v : option jv) (rest : bytes)
| Wrong.

(** mtev_json_tokener.c:666-676 *)
Definition finish_parse (x : outcome) : result :=
  match x with
  | Out t c rest =>
      let t := if c =? 0 then
                 match state (top t), saved (top t) with
                 | S_finish, _ => t
                 | _, S_finish => t
                 | _, _ => set_err t E_eof
                 end
               else t in
      Ret t (match err t with E_success => Some (current (top t)) | _ => None end) rest
  | _ => Wrong
  end.

(** mtev_json_tokener.c:187-677 mtev_json_tokener_parse_ex. The input is the
    len characters at str, or with len -1 (not bounded) the string and its
    terminating NUL. *)
Definition parse_ex (e : env) (bounded : bool) (t : tok) (inp : bytes) : result :=
  let t := set_err t E_success in
  if started t then finish_parse (main_loop (length inp) e bounded t JNull 1 inp)
  else
    let t := set_started t in
    match inp with                                               (* 207-212 *)
    | [] => if bounded then finish_parse (Out (set_err t E_eof) 1 []) else Wrong
    | c :: rest =>
        match scan (fun c => negb (isspace c)) c rest with
        | (_, Hit c rest) =>
            if negb (c =? 123) && negb (c =? 91)                 (* 218-221 *)
            then finish_parse (Out (set_err t E_unexpected) c (c :: rest))
            else finish_parse (main_loop (S (length rest)) e bounded t JNull c (c :: rest))
        | (_, Nul rest) => finish_parse (Out (set_err t E_eof) 0 rest)
        | (_, End c) => if bounded then finish_parse (Out (set_err t E_eof) c []) else Wrong
        end
    end.

(** mtev_json_tokener.c:102-114 mtev_json_tokener_parse_len: the object and the
    error of a new parser *)
Definition parse_len (e : env) (s : bytes) : result := parse_ex e true tok_new s.
(** mtev_json_tokener.c:116-119 mtev_json_tokener_parse, of a string *)
Definition parse (e : env) (s : bytes) : result := parse_ex e false tok_new (s ++ [0]).
