(** Model of include/time_conversion.h and of time_util.py.

    The C int arithmetic is that of [Z] with truncating division ([Z.quot], [Z.rem]);
    the theorem [C47_no_overflow] gives a range of days for which all intermediate
    results fit into 32 bits.  The doubles are reals. *)

From Coq Require Import Bool List ZArith Reals.
Open Scope Z_scope.

(** time_conversion.h:44-52, and the same formulas in 68-75; [day2k] is floor(mjd2k) *)
Definition jd_of (day2k : Z) : Z := day2k + 2451545.
Definition f_of (d : Z) : Z :=
  d + 1401 + (if 2299160 <? d then Z.quot (Z.quot (4 * d + 274277) 146097 * 3) 4 - 38 else 0).
Definition e_of (f : Z) : Z := 4 * f + 3.
Definition h_of (e : Z) : Z := 5 * (Z.quot (Z.rem e 1461) 4) + 2.
Definition month_of (h : Z) : Z := Z.rem (Z.quot h 153 + 2) 12 + 1.
Definition year_of (e month : Z) : Z := Z.quot e 1461 - 4716 + Z.quot (14 - month) 12.

(** time_conversion.h:44-55 for a whole day: (year, month, day) *)
Definition day_to_date (day2k : Z) : Z * Z * Z :=
  let e := e_of (f_of (jd_of day2k)) in
  let h := h_of e in
  let day := Z.quot (Z.rem h 153) 5 + 1 in
  let month := month_of h in
  (year_of e month, month, day).

(** time_conversion.h:44-54: all intermediate integer results *)
Definition intermediates (day : Z) : list Z :=
  let d := jd_of day in
  let f0 := d + 1401 in
  let q := Z.quot (4 * d + 274277) 146097 in
  let f := f_of d in
  let e := e_of f in
  let r := Z.rem e 1461 in
  let h := h_of e in
  let month := month_of h in
  (d :: f0 :: (4 * d)%Z :: (4 * d + 274277) :: q :: (q * 3) :: (Z.quot (q * 3) 4) ::
   (Z.quot (q * 3) 4 - 38) :: f :: (4 * f) :: e :: r :: (Z.quot r 4) :: (5 * Z.quot r 4) :: h ::
   (Z.rem h 153) :: (Z.quot (Z.rem h 153) 5) :: (Z.quot h 153) :: (Z.quot h 153 + 2) :: month ::
   (Z.quot e 1461) :: (Z.quot e 1461 - 4716) :: (14 - month) :: (Z.quot (14 - month) 12) ::
   year_of e month :: nil)%list.

(** time_conversion.h:67-76 for a whole day *)
Definition day_to_year (day2k : Z) : Z :=
  let e := e_of (f_of (jd_of day2k)) in
  let h := h_of e in
  let month := month_of h in
  year_of e month.

(** time_conversion.h:91-94 *)
Definition mjd2k_year_start (year : Z) : Z :=
  let y := year + 4799 in
  365 * y + Z.quot y 4 - 2483321 +
  (if 1582 <? year then 1 else 0) * (Z.quot y 400 - Z.quot y 100 + 38).

(** time_conversion.h:103-105 *)
Definition is_leap_year (year : Z) : bool :=
  (Z.rem year 4 =? 0) &&
  (negb (Z.rem year 100 =? 0) || (Z.rem year 400 =? 0) || (year <=? 1582)).

(** time_conversion.h:115-117 *)
Definition days_per_year (year : Z) : Z := 365 + (if is_leap_year year then 1 else 0).

Open Scope R_scope.

(** time_conversion.h:127-129 *)
Definition years_per_day (year : Z) : R := if is_leap_year year then 1 / 366 else 1 / 365.

(** The largest integer not above the number, C's floor *)
Definition floor (x : R) : Z := (up x - 1)%Z.

(** time_conversion.h:44-55 *)
Definition mjd2k_to_date (mjd2k : R) : (Z * Z * Z) * R :=
  (day_to_date (floor mjd2k), 24 * (mjd2k - IZR (floor mjd2k))).

(** time_conversion.h:67-76 *)
Definition mjd2k_to_year (mjd2k : R) : Z := day_to_year (floor mjd2k).

(** time_conversion.h:138-141 *)
Definition mjd2k_to_decimal_year (mjd2k : R) : R :=
  let year := mjd2k_to_year mjd2k in
  IZR year + (mjd2k - IZR (mjd2k_year_start year)) * years_per_day year.

(** time_conversion.h:151-154 *)
Definition mjd2k_to_year_fraction (mjd2k : R) : R :=
  let year := mjd2k_to_year mjd2k in
  (mjd2k - IZR (mjd2k_year_start year)) * years_per_day year.

(** time_conversion.h:163-171 for finite numbers *)
Definition decimal_year_to_mjd2k (decimal_year : R) : R :=
  let year := floor decimal_year in
  IZR (mjd2k_year_start year) + (decimal_year - IZR year) * IZR (days_per_year year).

(** time_util.py:49-54 *)
Definition mjd2000_to_decimal_year_simple (t : R) : R := 2000 + t / (36525 / 100).
(** time_util.py:57-63 *)
Definition mjd2000_to_year_fraction_simple (t : R) : R :=
  let y := t / (36525 / 100) in y - IZR (floor y).
(** time_util.py:66-71 *)
Definition decimal_year_to_mjd2000_simple (y : R) : R := (y - 2000) * (36525 / 100).
