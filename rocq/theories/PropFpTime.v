(** Property theorems C90: time conversions in double precision. *)

From Coq Require Import ZArith Reals.
From Verif Require Import FpSpec TimeModel TimeSpec FpTimeModel FpTimeProofs FpTripProofs FpTimeExamples.
Open Scope R_scope.

(** The decimal year does not decrease with the time ... *)
Theorem C90_nondecreasing : forall t t', IZR first_day <= t -> t <= t' -> t' <= 500000000 ->
  mjd2k_to_decimal_year_fl t <= mjd2k_to_decimal_year_fl t'.
Proof. exact decimal_fl_le. Qed.
Print Assumptions C90_nondecreasing.

(** ... but it does not increase strictly: a time before the end of the year can get the
    next year, the year fraction 1 and the hour 24. *)
Theorem C90_strict_refuted : exists t t', double t /\ double t' /\ t < t' /\
  mjd2k_to_decimal_year_fl t = mjd2k_to_decimal_year_fl t' /\
  floor (mjd2k_to_decimal_year_fl t) <> mjd2k_to_year t /\ mjd2k_to_year_fraction_fl t = 1 /\
  snd (mjd2k_to_date_fl t) = 24.
Proof. exact fl_not_strict. Qed.
Print Assumptions C90_strict_refuted.

(** It is between the year and the next one, and the fraction is between 0 and 1. *)
Theorem C90_range : forall t, IZR first_day <= t <= 500000000 ->
  IZR (mjd2k_to_year t) <= mjd2k_to_decimal_year_fl t <= IZR (mjd2k_to_year t) + 1.
Proof. exact decimal_fl_range. Qed.
Print Assumptions C90_range.

Theorem C90_fraction_range : forall t, IZR first_day <= t <= 500000000 -> 0 <= mjd2k_to_year_fraction_fl t <= 1.
Proof. exact fraction_fl_range. Qed.
Print Assumptions C90_fraction_range.

Theorem C90_fraction_error : forall t, IZR first_day <= t <= 500000000 ->
  Rabs (mjd2k_to_year_fraction_fl t - mjd2k_to_year_fraction t) <= powerRZ 2 (-51).
Proof. exact fraction_fl_err_pow. Qed.
Print Assumptions C90_fraction_error.

(** The year starts are converted without any error, in both directions. *)
Theorem C90_year_start : forall y, (-4715 <= y <= 2000000)%Z ->
  mjd2k_to_decimal_year_fl (IZR (mjd2k_year_start y)) = IZR y.
Proof. exact decimal_fl_start. Qed.
Print Assumptions C90_year_start.

Theorem C90_year_start_inverse : forall y, (-4799 <= y <= 2000000)%Z ->
  decimal_year_to_mjd2k_fl (IZR y) = IZR (mjd2k_year_start y).
Proof. exact mjd_fl_start. Qed.
Print Assumptions C90_year_start_inverse.

(** The inverse conversion does not decrease from other decimal years than those of 1582. *)
Theorem C90_inverse_nondecreasing_partial : forall d d', -4799 <= d -> d <= d' -> d' <= 2000000 ->
  ~ (1582 <= d < 1583) -> decimal_year_to_mjd2k_fl d <= decimal_year_to_mjd2k_fl d'.
Proof. exact mjd_fl_mono. Qed.
Print Assumptions C90_inverse_nondecreasing_partial.

(** Error of the decimal year, for any range of years ... *)
Theorem C90_decimal_year_error : forall t k, IZR first_day <= t <= 500000000 -> (0 <= k)%Z ->
  - powerRZ 2 k <= IZR (mjd2k_to_year t) -> IZR (mjd2k_to_year t) + 1 <= powerRZ 2 k ->
  Rabs (mjd2k_to_decimal_year_fl t - mjd2k_to_decimal_year t) <= powerRZ 2 (k - 54) + powerRZ 2 (-51).
Proof. exact decimal_fl_err_pow. Qed.
Print Assumptions C90_decimal_year_error.

(** ... and for the years 1 to 2046, less than 4 microseconds. *)
Theorem C90_decimal_year_error_now : forall t, -730121 <= t < 17167 ->
  Rabs (mjd2k_to_decimal_year_fl t - mjd2k_to_decimal_year t) <= / 8600000000000.
Proof. exact fl_decimal_error. Qed.
Print Assumptions C90_decimal_year_error_now.

(** Error of the time *)
Theorem C90_mjd_error : forall d j, -4799 <= d <= 2000000 -> (0 <= j)%Z ->
  - powerRZ 2 j <= IZR (mjd2k_year_start (floor d)) -> IZR (mjd2k_year_start (floor d)) + 366 <= powerRZ 2 j ->
  Rabs (decimal_year_to_mjd2k_fl d - decimal_year_to_mjd2k d) <= powerRZ 2 (j - 54) + powerRZ 2 (-44).
Proof. exact mjd_fl_err_pow. Qed.
Print Assumptions C90_mjd_error.

(** Round trips *)
Theorem C90_mjd_round_trip : forall t k j, IZR first_day <= t <= 500000000 -> (0 <= k)%Z -> (0 <= j)%Z ->
  let y := mjd2k_to_year t in
  - powerRZ 2 k <= IZR y -> IZR y + 1 <= powerRZ 2 k ->
  - powerRZ 2 j <= IZR (mjd2k_year_start y) -> IZR (mjd2k_year_start y) + 366 <= powerRZ 2 j ->
  Rabs (decimal_year_to_mjd2k_fl (mjd2k_to_decimal_year_fl t) - t) <=
    366 * powerRZ 2 (k - 54) + powerRZ 2 (j - 54) + powerRZ 2 (-41).
Proof. exact fl_mjd_trip_pow. Qed.
Print Assumptions C90_mjd_round_trip.

(** ... less than 9 microseconds for the years 1 to 2046 *)
Theorem C90_mjd_round_trip_now : forall t, -730121 <= t < 17167 ->
  Rabs (decimal_year_to_mjd2k_fl (mjd2k_to_decimal_year_fl t) - t) <= / 9900000000.
Proof. exact fl_mjd_trip_error. Qed.
Print Assumptions C90_mjd_round_trip_now.

(** The other round trip, but for the last eleven days of the code's year 1582 *)
Theorem C90_decimal_round_trip_partial : forall d k j, -4715 <= d <= 1000000 -> ~ (1582 + 354 / 365 <= d < 1583) ->
  (0 <= k)%Z -> (0 <= j)%Z -> let y := floor d in
  - powerRZ 2 k <= IZR y -> IZR y + 1 <= powerRZ 2 k ->
  - powerRZ 2 j <= IZR (mjd2k_year_start y) -> IZR (mjd2k_year_start y) + 366 <= powerRZ 2 j ->
  Rabs (mjd2k_to_decimal_year_fl (decimal_year_to_mjd2k_fl d) - d) <=
    powerRZ 2 (k - 54) + / 365 * powerRZ 2 (j - 54) + powerRZ 2 (-50).
Proof. exact fl_decimal_trip_pow. Qed.
Print Assumptions C90_decimal_round_trip_partial.

Theorem C90_decimal_round_trip_now_partial : forall d, 1 <= d < 2047 -> ~ (1582 + 354 / 365 <= d < 1583) ->
  Rabs (mjd2k_to_decimal_year_fl (decimal_year_to_mjd2k_fl d) - d) <= / 3600000000000.
Proof. exact fl_decimal_trip_error. Qed.
Print Assumptions C90_decimal_round_trip_now_partial.

(** The hours of a date are between 0 and 24, with an error less than 13 picoseconds ... *)
Theorem C90_hours : forall t, 0 <= snd (mjd2k_to_date_fl t) <= 24 /\
  Rabs (snd (mjd2k_to_date_fl t) - 24 * (t - IZR (floor t))) <= / 281474976710656 /\
  fst (mjd2k_to_date_fl t) = day_to_date (floor t).
Proof. exact hours_fl_range. Qed.
Print Assumptions C90_hours.

(** ... and since 2000 less than 24. *)
Theorem C90_hours_since_2000 : forall t, double t -> 0 <= t -> snd (mjd2k_to_date_fl t) < 24.
Proof. exact hours_fl_lt. Qed.
Print Assumptions C90_hours_since_2000.

(** The simplified conversions do not decrease, the whole years are exact, the fraction is
    between 0 and 1, the error is bounded. *)
Theorem C90_simple_nondecreasing : forall t t', t <= t' ->
  mjd2000_to_decimal_year_simple_fl t <= mjd2000_to_decimal_year_simple_fl t' /\
  decimal_year_to_mjd2000_simple_fl t <= decimal_year_to_mjd2000_simple_fl t'.
Proof. exact simple_fl_le. Qed.
Print Assumptions C90_simple_nondecreasing.

Theorem C90_simple_years : forall n, (Z.abs n < 2 ^ 40)%Z ->
  mjd2000_to_decimal_year_simple_fl (IZR n * (36525 / 100)) = 2000 + IZR n /\
  decimal_year_to_mjd2000_simple_fl (2000 + IZR n) = IZR n * (36525 / 100).
Proof. exact simple_fl_years. Qed.
Print Assumptions C90_simple_years.

Theorem C90_simple_fraction : forall t k, (0 <= k)%Z -> Rabs (t / (36525 / 100)) <= powerRZ 2 k ->
  0 <= mjd2000_to_year_fraction_simple_fl t <= 1 /\ exists n,
  Rabs (mjd2000_to_year_fraction_simple_fl t + IZR n - t / (36525 / 100)) <= powerRZ 2 (k - 54) + powerRZ 2 (-54).
Proof. exact simple_fl_fraction_err. Qed.
Print Assumptions C90_simple_fraction.

Theorem C90_simple_inverse_error : forall y k, (0 <= k)%Z -> Rabs (y - 2000) <= powerRZ 2 k ->
  Rabs (decimal_year_to_mjd2000_simple_fl y - decimal_year_to_mjd2000_simple y) <= powerRZ 2 (k - 44).
Proof. exact simple_fl_inverse_err. Qed.
Print Assumptions C90_simple_inverse_error.

Theorem C90_simple_error : forall t k, (0 <= k)%Z -> Rabs (t / (36525 / 100)) <= powerRZ 2 k ->
  Rabs (mjd2000_to_decimal_year_simple_fl t - mjd2000_to_decimal_year_simple t) <= powerRZ 2 (k - 54) + powerRZ 2 (k - 42).
Proof. exact simple_fl_err_pow. Qed.
Print Assumptions C90_simple_error.

Example C90_example : mjd2k_to_decimal_year_fl 9862 = 2027 /\ decimal_year_to_mjd2k_fl 2027 = 9862 /\
  mjd2k_to_decimal_year_fl 183 = 2000 + 1 / 2.
Proof. exact ex_fl. Qed.
