From Coq Require Import String NArith ZArith List Bool Lia.
From Verif.Confstr Require Import Model Spec Proofs.
Import ListNotations.
Local Open Scope Z_scope.

(** ** C20 *)
(** [epoch] counts the days year by year and month by month *)
Theorem C20_timegm : forall y m d h mi s, 1970 <= y -> 1 <= m <= 12 -> timegm (y - 1900) (m - 1) d h mi s = epoch y m d h mi s.
Proof. intros. apply timegm_epoch; lia. Qed.
Print Assumptions C20_timegm.
Example C20_timegm_ex : timegm (2024 - 1900) (2 - 1) 29 12 30 15 = 1709209815 /\ epoch 2024 2 29 12 30 15 = 1709209815.
Proof. split; vm_compute; reflexivity. Qed.

(** a text yyyy-mm-ddThh:mm:ss(Z|+hh:mm|-hh:mm) is refused or gives exactly its time minus the zone
    offset; it is unrepresentable exactly when that is negative *)
Theorem C20_parse_time : forall sp y m d h mi s z up, reads sp ->
  1900 <= y <= 9999 -> 1 <= m <= 12 -> 1 <= d <= 31 -> 0 <= h <= 23 -> 0 <= mi <= 59 -> 0 <= s <= 59 -> zone_ok z ->
  parse_time_gm sp (rfc3339 y m d h mi s z up) = (ErrFormat, None) \/
  parse_time_gm sp (rfc3339 y m d h mi s z up) =
    if epoch y m d h mi s - zone_secs z <? 0 then (ErrUnrepresentable, None) else (Success, Some (epoch y m d h mi s - zone_secs z)).
Proof. intros sp y m d h mi s z up. intros. rewrite parse_text by assumption. destruct (is_valid_date _ _ _); auto. Qed.
Print Assumptions C20_parse_time.

(** and real dates are not refused, 29 February of years divisible by 400 excepted (C21) *)
Theorem C20_parse_real : forall sp y m d h mi s z up, reads sp -> 1900 <= y <= 9999 -> real_date y m d -> ~ (m = 2 /\ d = 29 /\ y mod 400 = 0) ->
  0 <= h <= 23 -> 0 <= mi <= 59 -> 0 <= s <= 59 -> zone_ok z ->
  parse_time_gm sp (rfc3339 y m d h mi s z up) =
    if epoch y m d h mi s - zone_secs z <? 0 then (ErrUnrepresentable, None) else (Success, Some (epoch y m d h mi s - zone_secs z)).
Proof. exact time_value. Qed.
Print Assumptions C20_parse_real.
(** 1970-01-01T01:00:00+02:00 lies before the epoch, 1969-12-31T23:00:00-02:00 after *)
Example C20_parse_time_ex : reads std /\ zone_ok (Off true 2 0) /\
  parse_time_gm std (rfc3339 1969 12 31 23 0 0 (Off true 2 0) true) = (Success, Some 3600) /\
  parse_time_gm std (rfc3339 1970 1 1 1 0 0 (Off false 2 0) true) = (ErrUnrepresentable, None).
Proof. split; [exact std_reads|]. split; [cbn; lia|]. split; vm_compute; reflexivity. Qed.
Example C20_parse_real_ex : real_date 2024 2 29 /\ parse_time_gm std (rfc3339 2024 2 29 12 30 15 (Off false 5 30) false) = (Success, Some (1709209815 - 19800)).
Proof. split; [vm_compute; repeat split; discriminate|vm_compute; reflexivity]. Qed.

(** any successful parse, of any text and with any strptime, used fields within their ranges and
    returned their time minus an offset of less than a day *)
Theorem C20_parse_sound : forall sp s v, parse_time_gm sp s = (Success, Some v) ->
  exists y m d h mi sc o r1 r2, sp_date sp s = Some (y - 1900, m - 1, d, r1) /\ 1900 <= y /\ 1 <= m <= 12 /\ 1 <= d <= 31 /\
    sp_time sp (tl r1) = Some (h, mi, sc, r2) /\ 0 <= h <= 23 /\ 0 <= mi <= 59 /\ 0 <= sc <= 59 /\ -86400 < o < 86400 /\
    0 <= v /\ v = epoch y m d h mi sc - o.
Proof. exact parse_sound. Qed.
Print Assumptions C20_parse_sound.
Example C20_parse_sound_ex : parse_time_gm std (rfc3339 2024 2 29 12 30 15 (Off false 5 30) false) = (Success, Some 1709190015) /\
  fst (parse_time_gm std (rfc3339 2024 2 29 12 30 60 (Off false 5 30) false)) = ErrFormat.
Proof. split; vm_compute; reflexivity. Qed.

(** ** C21: accepted exactly when the day exists.  False: *)
Theorem C21_leap_year_refuted :
  (real_date 2000 2 29 /\ forall sp, reads sp -> parse_time_gm sp (rfc3339 2000 2 29 0 0 0 (Zulu true) true) = (ErrFormat, None)) /\
  (~ real_date 2300 2 29 /\ forall sp, reads sp -> fst (parse_time_gm sp (rfc3339 2300 2 29 0 0 0 (Zulu true) true)) = Success).
Proof.
  split; (split; [vm_compute; tauto || (intros [_ [_ H]]; apply H; reflexivity) || (repeat split; discriminate)|]).
  - intros sp R. rewrite parse_text by (try assumption; cbn; lia). reflexivity.
  - intros sp R. rewrite parse_text by (try assumption; cbn; lia). vm_compute. reflexivity.
Qed.
Print Assumptions C21_leap_year_refuted.

(** exactly which dates are accepted: the real ones, except that 29 February is judged wrongly in
    years that are 0 or 300 modulo 400 *)
Theorem C21_accepts_partial : forall sp y m d h mi s z up, reads sp ->
  1900 <= y <= 9999 -> 1 <= m <= 12 -> 1 <= d <= 31 -> 0 <= h <= 23 -> 0 <= mi <= 59 -> 0 <= s <= 59 -> zone_ok z ->
  fst (parse_time_gm sp (rfc3339 y m d h mi s z up)) <> ErrFormat <->
  (if (m =? 2) && (d =? 29) && ((y mod 400 =? 0) || (y mod 400 =? 300)) then ~ real_date y m d else real_date y m d).
Proof. exact date_accepted. Qed.
Print Assumptions C21_accepts_partial.
Example C21_accepts_partial_ex : fst (parse_time_gm std (rfc3339 2023 4 31 0 0 0 (Zulu true) true)) = ErrFormat /\
  fst (parse_time_gm std (rfc3339 2023 4 30 0 0 0 (Zulu true) true)) = Success.
Proof. split; vm_compute; reflexivity. Qed.

Theorem C21_ordinary_years : forall y m d, 1900 <= y -> y mod 100 <> 0 -> 1 <= m <= 12 -> 1 <= d <= 31 ->
  is_valid_date (y - 1900) (m - 1) d = true <-> real_date y m d.
Proof. exact year_valid. Qed.
Print Assumptions C21_ordinary_years.
Example C21_ordinary_years_ex : is_valid_date (2023 - 1900) (2 - 1) 29 = false /\ is_valid_date (2024 - 1900) (2 - 1) 29 = true.
Proof. split; reflexivity. Qed.

(** ** C22 *)
(** accepted exactly: one or more terms number-unit, blanks anywhere around the parts *)
Theorem C22_accepts : forall d s, (exists v, parse_duration s d = Some (Success, v)) <-> (exists ts, duration_text d s ts).
Proof. exact duration_accepts. Qed.
Print Assumptions C22_accepts.

(** the result is the sum of the terms whenever that sum is below 2^64 *)
Theorem C22_sum_partial : forall d s ts, positive d -> duration_text d s ts -> (total d ts < two64)%N -> parse_duration s d = Some (Success, total d ts).
Proof. exact duration_sum. Qed.
Print Assumptions C22_sum_partial.
Theorem C22_tables_positive : positive durations_ns /\ positive durations_us /\ positive durations_ms /\ positive durations_s.
Proof. exact tables_positive. Qed.
Print Assumptions C22_tables_positive.

(** it wraps modulo 2^64 otherwise (each number being below 2^64) *)
Theorem C22_wraps : forall d s ts, duration_text d s ts -> Forall (fun t => decimal (t_digits t) < two64)%N ts ->
  parse_duration s d = Some (Success, total d ts mod two64)%N.
Proof. exact duration_wraps. Qed.
Print Assumptions C22_wraps.

(** "1min5ms" in milliseconds: mtev_confstr.h documents 60005 *)
Definition t1 : list term := [{| t_digits := [49%N]; t_gap := []; t_unit := [109; 105; 110]%N; t_end := [] |};
                              {| t_digits := [53%N]; t_gap := [32%N]; t_unit := [109; 115]%N; t_end := [32%N] |}].
Lemma t1_text : duration_text durations_ms (32%N :: List.concat (map term_text t1)) t1.
Proof.
  exists [32%N]. split; [repeat constructor|]. split; [reflexivity|]. split; [discriminate|].
  repeat constructor; try discriminate.
  - exists (mul_min sec_ms). cbn. tauto.
  - exists 1%N. cbn. tauto.
Qed.
Example C22_accepts_ex : exists ts, duration_text durations_ms [32; 49; 109; 105; 110; 53; 32; 109; 115; 32]%N ts.
Proof. exists t1. exact t1_text. Qed.
Example C22_sum_partial_ex : positive durations_ms /\ duration_text durations_ms (32%N :: List.concat (map term_text t1)) t1 /\ total durations_ms t1 = 60005%N.
Proof. split; [apply tables_positive|]. split; [exact t1_text|vm_compute; reflexivity]. Qed.
Example C22_wraps_ex : Forall (fun t => decimal (t_digits t) < two64)%N t1.
Proof. repeat constructor. Qed.
Example C22_tables_positive_ex : unit_mul durations_ns [104%N] = Some 3600000000000%N.
Proof. vm_compute. reflexivity. Qed.

(** 18446744073709551615s + 1s is reported as 0 *)
Theorem C22_overflow_refuted : exists s ts, duration_text durations_s s ts /\ total durations_s ts = two64 /\ parse_duration s durations_s = Some (Success, 0%N).
Proof.
  exists ([49; 56; 52; 52; 54; 55; 52; 52; 48; 55; 51; 55; 48; 57; 53; 53; 49; 54; 49; 53; 115; 49; 115]%N).
  exists [{| t_digits := [49; 56; 52; 52; 54; 55; 52; 52; 48; 55; 51; 55; 48; 57; 53; 53; 49; 54; 49; 53]%N; t_gap := []; t_unit := [115%N]; t_end := [] |};
          {| t_digits := [49%N]; t_gap := []; t_unit := [115%N]; t_end := [] |}].
  split; [|split; vm_compute; reflexivity]. exists []. split; [constructor|]. split; [reflexivity|]. split; [discriminate|].
  repeat constructor; try discriminate; exists 1%N; cbn; tauto.
Qed.
Print Assumptions C22_overflow_refuted.

(** the tables hold exactly the documented units with their meaning *)
Theorem C22_units :
  table durations_ns 1 ["ns"; "us"; "ms"; "s"; "sec"; "second"; "seconds"; "m"; "min"; "minute"; "minutes"; "h"; "hr"; "hour"; "hours"]%string /\
  table durations_us 1000 ["us"; "ms"; "s"; "sec"; "second"; "seconds"; "m"; "min"; "minute"; "minutes"; "h"; "hr"; "hour"; "hours"; "d"; "day"; "days"]%string /\
  table durations_ms 1000000 ["ms"; "s"; "sec"; "second"; "seconds"; "m"; "min"; "minute"; "minutes"; "h"; "hr"; "hour"; "hours"; "d"; "day"; "days"; "w"; "wk"; "week"; "weeks"]%string /\
  table durations_s 1000000000 ["s"; "sec"; "second"; "seconds"; "m"; "min"; "minute"; "minutes"; "h"; "hr"; "hour"; "hours"; "d"; "day"; "days"; "w"; "wk"; "week"; "weeks"]%string.
Proof. repeat split; vm_compute; reflexivity. Qed.
Print Assumptions C22_units.
Example C22_units_ex : unit_mul durations_s (bytes "weeks") = Some 604800%N.
Proof. vm_compute. reflexivity. Qed.

(** the resolutions agree up to the factor *)
Theorem C22_scales : scaled 1000 durations_s durations_ms /\ scaled 1000 durations_ms durations_us /\ scaled 1000 durations_us durations_ns.
Proof. exact tables_scaled. Qed.
Print Assumptions C22_scales.
Theorem C22_variants_agree : forall c a b s va vb ts tsb, scaled c a b -> positive a -> positive b ->
  duration_text a s ts -> duration_text b s tsb -> (total b ts < two64)%N -> (total a ts < two64)%N ->
  parse_duration s a = Some (Success, va) -> parse_duration s b = Some (Success, vb) -> vb = (c * va)%N.
Proof. exact duration_scaled. Qed.
Print Assumptions C22_variants_agree.
Example C22_scales_ex : unit_mul durations_s [104%N] = Some 3600%N /\ unit_mul durations_ms [104%N] = Some 3600000%N.
Proof. split; vm_compute; reflexivity. Qed.
Example C22_variants_agree_ex : parse_duration [49; 104]%N durations_ms = Some (Success, 3600000%N) /\ parse_duration [49; 104]%N durations_us = Some (Success, 3600000000%N).
Proof. split; vm_compute; reflexivity. Qed.

(** the parser always ends *)
Theorem C22_terminates : forall d s, exists r v, parse_duration s d = Some (r, v).
Proof. exact duration_total_fn. Qed.
Print Assumptions C22_terminates.
Example C22_terminates_ex : parse_duration [49; 120]%N durations_s = Some (ErrFormat, 0%N).
Proof. vm_compute. reflexivity. Qed.

(** ** C54 *)
(** exactly the six words, in any case, are booleans *)
Theorem C54_boolean : forall s b, parse_boolean s = (Success, Some b) <->
  In (map toupper s) (map (map toupper) (if b then [s_yes; s_true; s_on] else [s_no; s_false; s_off])).
Proof. exact boolean_ok. Qed.
Print Assumptions C54_boolean.
Example C54_boolean_ex : parse_boolean [89; 101; 83]%N = (Success, Some true).
Proof. vm_compute. reflexivity. Qed.
