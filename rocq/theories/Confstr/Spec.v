(** Gregorian calendar and RFC 3339 texts, duration grammar. *)
From Coq Require Import NArith ZArith List Bool.
From Verif.Confstr Require Import Model.
Import ListNotations.

(** ** durations *)
Definition all (p : N -> bool) (s : list N) : Prop := Forall (fun c => p c = true) s.
(** digits, blanks, unit, blanks *)
Record term := { t_digits : list N; t_gap : list N; t_unit : list N; t_end : list N }.
Definition term_text (t : term) : list N := t_digits t ++ t_gap t ++ t_unit t ++ t_end t.
(** [d] gives the unit's meaning *)
Definition term_ok (d : defs) (t : term) : Prop :=
  all isdigit (t_digits t) /\ t_digits t <> [] /\ all isspace (t_gap t) /\ all isalpha (t_unit t) /\ t_unit t <> [] /\
  all isspace (t_end t) /\ exists m, In (t_unit t, m) d.
(** decimal value *)
Fixpoint decimal (ds : list N) : N :=
  match ds with [] => 0 | c :: r => (c - 48) * 10 ^ N.of_nat (length r) + decimal r end%N.
Definition same (a b : list N) : bool := if list_eq_dec N.eq_dec a b then true else false.
(** seconds (in the resolution of the table) of the named unit: multiples of the table's second *)
Definition meaning (d : defs) (t : term) : N :=
  match find (fun e => same (fst e) (t_unit t)) d with Some (_, m) => decimal (t_digits t) * m | None => 0 end%N.
Definition total (d : defs) (ts : list term) : N := fold_right (fun t a => meaning d t + a)%N 0%N ts.
(** [s] is a duration text with terms [ts] *)
Definition duration_text (d : defs) (s : list N) (ts : list term) : Prop :=
  exists blanks, all isspace blanks /\ s = blanks ++ concat (map term_text ts) /\ ts <> [] /\ Forall (term_ok d) ts.

(** ** calendar *)
Local Open Scope Z_scope.
Definition leap (y : Z) : bool := (y mod 4 =? 0) && (negb (y mod 100 =? 0) || (y mod 400 =? 0)).
Definition month_days (y m : Z) : Z :=
  if m =? 2 then (if leap y then 29 else 28)
  else if (m =? 4) || (m =? 6) || (m =? 9) || (m =? 11) then 30 else 31.
(** y-m-d, months from 1, is a day of the calendar *)
Definition real_date (y m d : Z) : Prop := 1 <= m <= 12 /\ 1 <= d <= month_days y m.
Definition year_days (y : Z) : Z := if leap y then 366 else 365.
(** days of the [n] years from [y] on *)
Fixpoint years_days (y : Z) (n : nat) : Z := match n with O => 0 | S n' => years_days y n' + year_days (y + Z.of_nat n') end.
Definition day_number (y m d : Z) : Z :=
  (if 1970 <=? y then years_days 1970 (Z.to_nat (y - 1970)) else - years_days y (Z.to_nat (1970 - y)))
  + fold_right Z.add 0 (map (fun k => month_days y (Z.of_nat k)) (seq 1 (Z.to_nat (m - 1)))) + (d - 1).
Definition epoch (y m d h mi s : Z) : Z := day_number y m d * 86400 + h * 3600 + mi * 60 + s.

(** ** texts *)
Definition dig (v : Z) : N := Z.to_N (48 + v mod 10).
Definition d2 (v : Z) : list N := [dig (v / 10); dig v].
Definition d4 (v : Z) : list N := [dig (v / 1000); dig (v / 100); dig (v / 10); dig v].
Definition date_text (y m d : Z) : list N := d4 y ++ [45%N] ++ d2 m ++ [45%N] ++ d2 d.
Definition time_text (h mi s : Z) : list N := d2 h ++ [58%N] ++ d2 mi ++ [58%N] ++ d2 s.
Definition hm_text (h mi : Z) : list N := d2 h ++ [58%N] ++ d2 mi.
(** Z, z, +hh:mm or -hh:mm *)
Inductive zone := Zulu (upper : bool) | Off (minus : bool) (h mi : Z).
Definition zone_text (z : zone) : list N :=
  match z with Zulu u => [if u then 90%N else 122%N] | Off m h mi => (if m then 45%N else 43%N) :: hm_text h mi end.
Definition zone_ok (z : zone) : Prop := match z with Zulu _ => True | Off _ h mi => 0 <= h <= 23 /\ 0 <= mi <= 59 end.
Definition zone_secs (z : zone) : Z := match z with Zulu _ => 0 | Off m h mi => (if m then -1 else 1) * (h * 3600 + mi * 60) end.
Definition rfc3339 (y m d h mi s : Z) (z : zone) (upper : bool) : list N :=
  date_text y m d ++ [if upper then 84%N else 116%N] ++ time_text h mi s ++ zone_text z.

(** what is assumed of strptime: it reads such texts *)
Definition reads (sp : strptime) : Prop :=
  (forall y m d r, 0 <= y <= 9999 -> 1 <= m <= 12 -> 1 <= d <= 31 -> sp_date sp (date_text y m d ++ r) = Some (y - 1900, m - 1, d, r)) /\
  (forall h mi s r, 0 <= h <= 23 -> 0 <= mi <= 59 -> 0 <= s <= 59 -> sp_time sp (time_text h mi s ++ r) = Some (h, mi, s, r)) /\
  (forall h mi r, 0 <= h <= 23 -> 0 <= mi <= 59 -> sp_hm sp (hm_text h mi ++ r) = Some (h, mi, r)).

(** the documented units with their meaning in nanoseconds *)
From Coq Require Import String Ascii.
Definition bytes (s : string) : list N := map N_of_ascii (list_ascii_of_string s).
Definition unit_ns (u : string) : N :=
  (if existsb (String.eqb u) ["ns"] then 1
   else if existsb (String.eqb u) ["us"] then 1000
   else if existsb (String.eqb u) ["ms"] then 1000000
   else if existsb (String.eqb u) ["s"; "sec"; "second"; "seconds"] then 1000000000
   else if existsb (String.eqb u) ["m"; "min"; "minute"; "minutes"] then 60000000000
   else if existsb (String.eqb u) ["h"; "hr"; "hour"; "hours"] then 3600000000000
   else if existsb (String.eqb u) ["d"; "day"; "days"] then 86400000000000
   else if existsb (String.eqb u) ["w"; "wk"; "week"; "weeks"] then 604800000000000
   else 0)%N%string.
(** a table of resolution [res] (in ns) whose units are exactly [us] *)
Definition table (d : defs) (res : N) (us : list string) : Prop := d = map (fun u => (bytes u, unit_ns u / res)%N) us.
