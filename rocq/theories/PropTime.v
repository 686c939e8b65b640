(** Property theorems C45-C48, C63: time conversions. *)

From Coq Require Import List ZArith Reals.
From Verif Require Import TimeModel TimeSpec TimeProofs DecimalProofs.

(** C45 is false for the decimal years of the last ten days of the year 1582 ... *)
Theorem C45_decimal_round_trip_refuted : exists y, mjd2k_to_decimal_year (decimal_year_to_mjd2k y) <> y.
Proof. exact decimal_round_trip_refuted. Qed.
Print Assumptions C45_decimal_round_trip_refuted.

(** ... and true for all other decimal years from the start of the Julian day formulas on.
    Missing: the ten days of 1582, for which there is no MJD2000 time. *)
Theorem C45_decimal_round_trip_partial : forall y, (-4715 <= y)%R -> ~ (1582 + 355 / 365 <= y < 1583)%R ->
  mjd2k_to_decimal_year (decimal_year_to_mjd2k y) = y.
Proof. exact decimal_round_trip. Qed.
Print Assumptions C45_decimal_round_trip_partial.

(** The other direction holds for all times. *)
Theorem C45_mjd_round_trip : forall t, (IZR first_day <= t)%R ->
  decimal_year_to_mjd2k (mjd2k_to_decimal_year t) = t.
Proof. exact mjd_round_trip. Qed.
Print Assumptions C45_mjd_round_trip.

Example C45_example : (mjd2k_to_decimal_year 0 = 2000 /\ mjd2k_to_decimal_year 183 = 2000 + 1 / 2)%R.
Proof. exact ex_decimal. Qed.

(** C46: the decimal year is strictly increasing ... *)
Theorem C46_increasing : forall t t', (IZR first_day <= t)%R -> (t < t')%R ->
  (mjd2k_to_decimal_year t < mjd2k_to_decimal_year t')%R.
Proof. exact decimal_increasing. Qed.
Print Assumptions C46_increasing.

(** ... its integer part is the calendar year ... *)
Theorem C46_whole_year : forall t, (IZR first_day <= t)%R ->
  floor (mjd2k_to_decimal_year t) = fst (fst (fst (mjd2k_to_date t))).
Proof. exact decimal_floor. Qed.
Print Assumptions C46_whole_year.

(** ... and the year fraction is the rest, in [0, 1). *)
Theorem C46_year_fraction : forall t, (IZR first_day <= t)%R ->
  (0 <= mjd2k_to_year_fraction t < 1)%R.
Proof. exact fraction_range. Qed.
Print Assumptions C46_year_fraction.

Theorem C46_fraction_of_decimal_year : forall t, (IZR first_day <= t)%R ->
  mjd2k_to_year_fraction t = (mjd2k_to_decimal_year t - IZR (floor (mjd2k_to_decimal_year t)))%R.
Proof. exact fraction_is_fraction. Qed.
Print Assumptions C46_fraction_of_decimal_year.

(** It is continuous at the year starts except for that of 1583 ... *)
Theorem C46_continuous_partial : forall y d, (-4714 <= y)%Z -> y <> 1583%Z -> (0 < d <= 365)%R ->
  mjd2k_to_decimal_year (IZR (mjd2k_year_start y) - d) = (IZR y - d * years_per_day (y - 1))%R /\
  mjd2k_to_decimal_year (IZR (mjd2k_year_start y)) = IZR y.
Proof. exact decimal_near_start. Qed.
Print Assumptions C46_continuous_partial.

(** ... where it jumps by ten days. *)
Theorem C46_continuous_refuted : exists t0, forall d, (0 < d <= 355)%R ->
  (mjd2k_to_decimal_year (t0 - d) <= mjd2k_to_decimal_year t0 - 10 / 365)%R.
Proof. exact decimal_jump. Qed.
Print Assumptions C46_continuous_refuted.

(** The inverse conversion is not monotone there. *)
Theorem C46_inverse_monotone_refuted : exists y y', (y < y')%R /\
  (decimal_year_to_mjd2k y' < decimal_year_to_mjd2k y)%R.
Proof. exact decimal_not_monotone. Qed.
Print Assumptions C46_inverse_monotone_refuted.

Example C46_example : (mjd2k_to_decimal_year 0 = 2000 /\ mjd2k_to_decimal_year 183 = 2000 + 1 / 2)%R.
Proof. exact ex_decimal. Qed.

Open Scope Z_scope.

(** C47: the day 0 is 1 January 2000 ... *)
Theorem C47_epoch : day_to_date 0 = (2000, 1, 1).
Proof. exact date_epoch. Qed.
Print Assumptions C47_epoch.

(** ... consecutive days have consecutive dates ... *)
Theorem C47_next_date : forall day, first_day <= day ->
  next_date (day_to_date day) (day_to_date (day + 1)).
Proof. exact date_next. Qed.
Print Assumptions C47_next_date.

(** ... all of them dates of the calendar. *)
Theorem C47_valid_date : forall day, first_day <= day -> valid_date (day_to_date day).
Proof. exact date_valid. Qed.
Print Assumptions C47_valid_date.

(** The date of a time is that of its day, with the hours since midnight. *)
Theorem C47_hours : forall t, (0 <= snd (mjd2k_to_date t) < 24 /\
  t = IZR (floor t) + snd (mjd2k_to_date t) / 24)%R /\ fst (mjd2k_to_date t) = day_to_date (floor t).
Proof. exact (fun t => match hours_range t with conj a (conj b c) => conj (conj a b) c end). Qed.
Print Assumptions C47_hours.

(** The integer arithmetic does not overflow for more than a million years. *)
Theorem C47_no_overflow : forall day, first_day <= day <= 500000000 -> Forall int32 (intermediates day).
Proof. exact no_overflow. Qed.
Print Assumptions C47_no_overflow.

(** Before the first day the dates are wrong. *)
Theorem C47_before_first_day : exists day, day < first_day /\
  ~ next_date (day_to_date day) (day_to_date (day + 1)).
Proof. exact before_first_day. Qed.
Print Assumptions C47_before_first_day.

Example C47_example : day_to_date (-152385) = (1582, 10, 4) /\ day_to_date (-152384) = (1582, 10, 15) /\
  day_to_date 59 = (2000, 2, 29) /\ day_to_date 9816 = (2026, 11, 16) /\ day_to_date (-36466) = (1900, 2, 28) /\
  day_to_date (-36465) = (1900, 3, 1) /\ mjd2k_year_start 2027 = 9862.
Proof. exact ex_dates. Qed.

(** C48: consecutive years start the length of the year apart, the length follows the
    leap year rule of the calendar in force; but for 1582 ... *)
Theorem C48_year_length_partial : forall y, -4799 <= y -> y <> 1582 ->
  mjd2k_year_start (y + 1) = mjd2k_year_start y + days_per_year y /\ (is_leap_year y = true <-> leap y).
Proof. exact year_start_step. Qed.
Print Assumptions C48_year_length_partial.

(** ... which has 355 days, not the 365 days of the code. *)
Theorem C48_year_length_refuted :
  mjd2k_year_start 1583 = mjd2k_year_start 1582 + 355 /\ days_per_year 1582 = 365.
Proof. exact year_start_reform. Qed.
Print Assumptions C48_year_length_refuted.

(** The start of a year is its first of January ... *)
Theorem C48_year_start_date : forall y, -4715 <= y -> day_to_date (mjd2k_year_start y) = (y, 1, 1).
Proof. exact year_start_date. Qed.
Print Assumptions C48_year_start_date.

(** ... and the year of a day is the one with the start before it and the end after it. *)
Theorem C48_year_of_day : forall day y, first_day <= day -> -4799 <= y ->
  (day_to_year day = y <-> mjd2k_year_start y <= day < mjd2k_year_start (y + 1)).
Proof. exact year_unique. Qed.
Print Assumptions C48_year_of_day.

Example C48_example : day_to_date (-152385) = (1582, 10, 4) /\ day_to_date (-152384) = (1582, 10, 15) /\
  day_to_date 59 = (2000, 2, 29) /\ day_to_date 9816 = (2026, 11, 16) /\ day_to_date (-36466) = (1900, 2, 28) /\
  day_to_date (-36465) = (1900, 3, 1) /\ mjd2k_year_start 2027 = 9862.
Proof. exact ex_dates. Qed.

Open Scope R_scope.

(** C63: the simplified conversions are inverse to each other, increasing, and the year
    fraction is the fractional part of the decimal year. *)
Theorem C63_simple_round_trip : forall t,
  decimal_year_to_mjd2000_simple (mjd2000_to_decimal_year_simple t) = t /\
  mjd2000_to_decimal_year_simple (decimal_year_to_mjd2000_simple t) = t.
Proof. exact simple_round_trip. Qed.
Print Assumptions C63_simple_round_trip.

Theorem C63_simple_increasing : forall t t', t < t' ->
  mjd2000_to_decimal_year_simple t < mjd2000_to_decimal_year_simple t'.
Proof. exact simple_increasing. Qed.
Print Assumptions C63_simple_increasing.

Theorem C63_simple_fraction : forall t, 0 <= mjd2000_to_year_fraction_simple t < 1 /\
  mjd2000_to_year_fraction_simple t =
    mjd2000_to_decimal_year_simple t - IZR (floor (mjd2000_to_decimal_year_simple t)).
Proof. exact simple_fraction. Qed.
Print Assumptions C63_simple_fraction.
