(** Model of the conversions of include/time_conversion.h and time_util.py with IEEE 754
    double precision arithmetic (round to nearest even, from Flocq) instead of the real
    numbers of [TimeModel].

    Every operation of the C code on doubles is rounded; the integers are those of
    [TimeModel].  The operations are not contracted to fused multiply-adds.  There is no
    overflow in the range of the theorems, hence the exponent range of [rnd] is not bounded
    from above. *)

From Coq Require Import ZArith Reals.
From Verif Require Import SizeModel TimeModel.
Open Scope R_scope.

(** time_conversion.h:127-129: the constants 1./366. and 1./365. are rounded *)
Definition years_per_day_fl (year : Z) : R :=
  if is_leap_year year then rnd (1 / 366) else rnd (1 / 365).

(** time_conversion.h:151-154; the conversion of the integer to double is exact *)
Definition mjd2k_to_year_fraction_fl (mjd2k : R) : R :=
  let year := mjd2k_to_year mjd2k in
  rnd (rnd (mjd2k - IZR (mjd2k_year_start year)) * years_per_day_fl year).

(** time_conversion.h:138-141 *)
Definition mjd2k_to_decimal_year_fl (mjd2k : R) : R :=
  let year := mjd2k_to_year mjd2k in
  rnd (IZR year + rnd (rnd (mjd2k - IZR (mjd2k_year_start year)) * years_per_day_fl year)).

(** time_conversion.h:163-171 for finite numbers; floor is exact *)
Definition decimal_year_to_mjd2k_fl (decimal_year : R) : R :=
  let year := floor decimal_year in
  rnd (IZR (mjd2k_year_start year) + rnd (rnd (decimal_year - IZR year) * IZR (days_per_year year))).

(** time_conversion.h:44-55: the date of a day and the hours *)
Definition mjd2k_to_date_fl (mjd2k : R) : (Z * Z * Z) * R :=
  (day_to_date (floor mjd2k), rnd (24 * rnd (mjd2k - IZR (floor mjd2k)))).

(** time_util.py:49-54; 365.25 and 2000.0 are doubles *)
Definition mjd2000_to_decimal_year_simple_fl (t : R) : R := rnd (2000 + rnd (t / (36525 / 100))).
(** time_util.py:57-63 *)
Definition mjd2000_to_year_fraction_simple_fl (t : R) : R :=
  let y := rnd (t / (36525 / 100)) in rnd (y - IZR (floor y)).
(** time_util.py:66-71 *)
Definition decimal_year_to_mjd2000_simple_fl (y : R) : R := rnd (rnd (y - 2000) * (36525 / 100)).
