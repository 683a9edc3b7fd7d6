(** Model of src/utils/mtev_confstr.c.
    A C string is the list of its bytes before the terminating NUL.  The <ctype.h> predicates are
    those of the C locale.  strptime is external: the three calls are parameters returning the
    fields they set and the rest of the text.  int and int64_t arithmetic is on Z (no value here
    comes near the limits for the years strptime can return), uint64_t is reduced modulo 2^64. *)
From Coq Require Import NArith ZArith List Bool.
Import ListNotations.
Local Open Scope N_scope.

(** mtev_confstr.h:17-19 *)
Inductive rc := Success | ErrFormat | ErrUnrepresentable.

(** isspace, isdigit, isalpha, toupper of <ctype.h>, as used at mtev_confstr.c:160-178,288 *)
Definition isspace (c : N) : bool := (c =? 32) || ((9 <=? c) && (c <=? 13)).
Definition isdigit (c : N) : bool := (48 <=? c) && (c <=? 57).
Definition isalpha (c : N) : bool := ((65 <=? c) && (c <=? 90)) || ((97 <=? c) && (c <=? 122)).
Definition toupper (c : N) : N := if (97 <=? c) && (c <=? 122) then c - 32 else c.

(** strcasecmp(a, b) == 0, as used at mtev_confstr.c:137-144 *)
Fixpoint strcaseeq (a b : list N) : bool :=
  match a, b with
  | [], [] => true
  | x :: a', y :: b' => (toupper x =? toupper y) && strcaseeq a' b'
  | _, _ => false
  end.

(** the literals of mtev_confstr.c:137-142 *)
Definition s_yes := [121; 101; 115]. Definition s_true := [116; 114; 117; 101]. Definition s_on := [111; 110].
Definition s_no := [110; 111]. Definition s_false := [102; 97; 108; 115; 101]. Definition s_off := [111; 102; 102].

(** mtev_confstr_parse_boolean, mtev_confstr.c:135-146 *)
Definition parse_boolean (input : list N) : rc * option bool :=
  if strcaseeq input s_yes || strcaseeq input s_true || strcaseeq input s_on then (Success, Some true)
  else if strcaseeq input s_no || strcaseeq input s_false || strcaseeq input s_off then (Success, Some false)
  else (ErrFormat, None).

(** the loops while( *p && pred( *p)) p++ of mtev_confstr.c:160,173,178: characters passed, rest *)
Fixpoint span (p : N -> bool) (s : list N) : list N * list N :=
  match s with [] => ([], []) | c :: r => if p c then let (a, b) := span p r in (c :: a, b) else ([], s) end.

Definition two64 : N := 2 ^ 64.
(** strtoul(input, &unit_str, 10) on a text starting with a digit (mtev_confstr.c:168); ULONG_MAX on overflow *)
Definition digits_val (ds : list N) : N := fold_left (fun a c => 10 * a + (c - 48)) ds 0.
Definition strtoul (s : list N) : N * list N := let (ds, r) := span isdigit s in (N.min (digits_val ds) (two64 - 1), r).

(** struct _mtev_duration_definition_t, mtev_confstr.c:73-77 (key, mul) *)
Definition defs := list (list N * N).
(** byte strings equal: the test of mtev_confstr.c:186-187, key_len being the length of key *)
Fixpoint bytes_eqb (a b : list N) : bool :=
  match a, b with [], [] => true | x :: a', y :: b' => (x =? y) && bytes_eqb a' b' | _, _ => false end.
(** the search at mtev_confstr.c:184-191 *)
Fixpoint unit_mul (d : defs) (u : list N) : option N :=
  match d with [] => None | (k, m) :: r => if bytes_eqb u k then Some m else unit_mul r u end.

(** unit names, mtev_confstr.c:42-71 *)
Definition k_ns := [[110; 115]]. Definition k_us := [[117; 115]]. Definition k_ms := [[109; 115]].
Definition k_sec := [[115]; [115; 101; 99]; [115; 101; 99; 111; 110; 100]; [115; 101; 99; 111; 110; 100; 115]].
Definition k_min := [[109]; [109; 105; 110]; [109; 105; 110; 117; 116; 101]; [109; 105; 110; 117; 116; 101; 115]].
Definition k_hr := [[104]; [104; 114]; [104; 111; 117; 114]; [104; 111; 117; 114; 115]].
Definition k_day := [[100]; [100; 97; 121]; [100; 97; 121; 115]].
Definition k_week := [[119]; [119; 107]; [119; 101; 101; 107]; [119; 101; 101; 107; 115]].
(** DURATION_DECL_* with one multiplier, mtev_confstr.c:42-71 *)
Definition decl (keys : list (list N)) (mul : N) : defs := map (fun k => (k, mul)) keys.
(** the multipliers DURATION_SEC_MUL etc., mtev_confstr.c:7-40, as products of their predecessor *)
Definition mul_min (sec : N) : N := 60 * sec.
Definition mul_hr (sec : N) : N := 60 * mul_min sec.
Definition mul_day (sec : N) : N := 24 * mul_hr sec.
Definition mul_week (sec : N) : N := 7 * mul_day sec.
(** mtev_confstr.c:79-120 *)
Definition sec_ns : N := 1000 * (1000 * (1000 * 1)).
Definition durations_ns : defs :=
  decl k_ns 1 ++ decl k_us (1000 * 1) ++ decl k_ms (1000 * (1000 * 1)) ++ decl k_sec sec_ns ++ decl k_min (mul_min sec_ns) ++ decl k_hr (mul_hr sec_ns).
Definition sec_us : N := 1000 * (1000 * 1).
Definition durations_us : defs :=
  decl k_us 1 ++ decl k_ms (1000 * 1) ++ decl k_sec sec_us ++ decl k_min (mul_min sec_us) ++ decl k_hr (mul_hr sec_us) ++ decl k_day (mul_day sec_us).
Definition sec_ms : N := 1000 * 1.
Definition durations_ms : defs :=
  decl k_ms 1 ++ decl k_sec sec_ms ++ decl k_min (mul_min sec_ms) ++ decl k_hr (mul_hr sec_ms) ++ decl k_day (mul_day sec_ms) ++ decl k_week (mul_week sec_ms).
Definition durations_s : defs :=
  decl k_sec 1 ++ decl k_min (mul_min 1) ++ decl k_hr (mul_hr 1) ++ decl k_day (mul_day 1) ++ decl k_week (mul_week 1).

(** mtev_confstr_parse_duration, mtev_confstr.c:149-198: return code and *output (also written on
    failure).  Every round consumes a digit; [None]: out of fuel. *)
Fixpoint parse_loop (fuel : nat) (input : list N) (out : N) (success : rc) (d : defs) : option (rc * N) :=
  match fuel with
  | O => None
  | S f =>
      match snd (span isspace input) with
      | [] => Some (success, out)
      | (c :: _) as input =>
          if isdigit c then
            let (rd, unit_str) := strtoul input in
            let unit_str := snd (span isspace unit_str) in
            let (u, rest) := span isalpha unit_str in
            match u with
            | [] => Some (ErrFormat, out)
            | _ => match unit_mul d u with
                   | None => Some (ErrFormat, out)
                   | Some m => parse_loop f rest ((out + (rd * m) mod two64) mod two64) Success d
                   end
            end
          else Some (ErrFormat, out)
      end
  end.
Definition parse_duration (input : list N) (d : defs) : option (rc * N) := parse_loop (S (length input)) input 0 ErrFormat d.

Local Open Scope Z_scope.
(** is_valid_date, mtev_confstr.c:200-225 ([year] is tm_year) *)
Definition is_valid_date (year month day : Z) : bool :=
  if (year <? 0) || (month <? 0) || (11 <? month) || (day <? 1) || (31 <? day) then false
  else
    let max_days :=
      if month =? 1 then
        if (Z.rem year 4 =? 0) && (negb (Z.rem year 100 =? 0) || (Z.rem year 400 =? 0)) then 29 else 28
      else if (month =? 3) || (month =? 5) || (month =? 8) || (month =? 10) then 30
      else 31 in
    negb (max_days <? day).

(** is_valid_time, mtev_confstr.c:227-233 *)
Definition is_valid_time (hour minute second : Z) : bool :=
  negb ((hour <? 0) || (23 <? hour) || (minute <? 0) || (59 <? minute) || (second <? 0) || (59 <? second)).

(** cumdays, mtev_confstr.c:251-252 *)
Definition cumdays : list Z := [0; 31; 59; 90; 120; 151; 181; 212; 243; 273; 304; 334].

(** mtev_timegm, mtev_confstr.c:245-269 (C division truncates) *)
Definition timegm (tm_year tm_mon tm_mday tm_hour tm_min tm_sec : Z) : Z :=
  let year := 1900 + tm_year in
  let result := (year - 1970) * 365 + nth (Z.to_nat tm_mon) cumdays 0 in
  let result := result + Z.quot (year - 1968) 4 in
  let result := result - Z.quot (year - 1900) 100 in
  let result := result + Z.quot (year - 1600) 400 in
  let result := if (Z.rem year 4 =? 0) && (negb (Z.rem year 100 =? 0) || (Z.rem year 400 =? 0)) && (tm_mon <? 2) then result - 1 else result in
  let result := result + (tm_mday - 1) in
  ((result * 24 + tm_hour) * 60 + tm_min) * 60 + tm_sec.

(** the strptime calls of mtev_confstr.c:287,295,307: tm_year, tm_mon, tm_mday for "%Y-%m-%d";
    tm_hour, tm_min, tm_sec for "%T"; tm_hour, tm_min for "%R"; None is the NULL result *)
Record strptime := {
  sp_date : list N -> option (Z * Z * Z * list N);
  sp_time : list N -> option (Z * Z * Z * list N);
  sp_hm : list N -> option (Z * Z * list N) }.

(** mtev_confstr.c:326-335 *)
Definition finish (y mo d h mi s tz_offset : Z) : rc * option Z :=
  let base_time := timegm y mo d h mi s - tz_offset in
  if base_time <? 0 then (ErrUnrepresentable, None) else (Success, Some base_time).

(** mtev_confstr_parse_time_gm, mtev_confstr.c:273-336: return code and *output if written *)
Definition parse_time_gm (sp : strptime) (input : list N) : rc * option Z :=
  match sp_date sp input with
  | None => (ErrFormat, None)
  | Some (y, mo, d, it) =>
      match it with
      | [] => (ErrFormat, None)
      | t :: input =>
          if negb (toupper t =? 84)%N then (ErrFormat, None)
          else if negb (is_valid_date y mo d) then (ErrFormat, None)
          else match sp_time sp input with
               | None => (ErrFormat, None)
               | Some (h, mi, s, it) =>
                   if negb (is_valid_time h mi s) then (ErrFormat, None)
                   else match it with
                        | [] => (ErrFormat, None)
                        | tzchr :: input =>
                            if (tzchr =? 45)%N || (tzchr =? 43)%N then
                              match sp_hm sp input with
                              | None => (ErrFormat, None)
                              | Some (th, tm, it) =>
                                  if negb (is_valid_time th tm 0) then (ErrFormat, None)
                                  else match it with
                                       | _ :: _ => (ErrFormat, None)
                                       | [] => let o := (th * 60 + tm) * 60 in
                                               finish y mo d h mi s (if (tzchr =? 45)%N then o * -1 else o)
                                       end
                              end
                            else if (tzchr =? 122)%N || (tzchr =? 90)%N then
                              match input with [] => finish y mo d h mi s 0 | _ => (ErrFormat, None) end
                            else (ErrFormat, None)
                        end
               end
      end
  end.
