(** Model of the conversions of the times in qdipole/apex.f90: TMJD, TJUDA, IDBL and DBL.

    The INTEGER arithmetic is that of [Z] with truncating division (overflows are left out),
    the REAL*8 numbers are real numbers, INT cuts the fraction off and NINT rounds to the
    nearest integer, halves away from zero. *)

From Coq Require Import Bool List ZArith Reals.
From Verif Require Import TimeModel SunModel.
Import ListNotations.
Open Scope Z_scope.

(** Fortran's NINT *)
Definition nint (x : R) : Z :=
  if Rlt_dec x 0 then - floor (- x + 1 / 2)%R else floor (x + 1 / 2)%R.

(** apex.f90:3028-3030, the lengths of the months *)
Definition month_lengths (february : Z) : list Z :=
  [31; february; 31; 30; 31; 30; 31; 31; 30; 31; 30; 31].

(** apex.f90:3076-3081; the month 13 is the end of the table *)
Fixpoint month_loop (lengths : list Z) (mo : Z) (d : R) : Z * R :=
  match lengths with
  | [] => (mo, d)
  | len :: rest => if len <=? c_int d then month_loop rest (mo + 1) (d - IZR len)%R else (mo, d)
  end.

(** apex.f90:3018-3022, the first day of the Gregorian calendar *)
Definition DGREG : R := (2299160 + 1 / 2)%R.

(** apex.f90:3032-3092, TJUDA with FLAG <= 0: the date of a Julian day.  The hours are left
    out, they are not used. *)
Definition tjuda_date (jd : R) : Z * Z * Z :=
  let gregorian := if Rle_dec DGREG jd then true else false in
  let d0 :=
    (if gregorian then
       let k := c_int (jd - (1721119 + 1 / 2)) in
       let j := Z.quot k 146097 in
       let j' := Z.min (Z.quot (k - j * 146097) 36524) 3 in
       jd + IZR (3 * j) + IZR j' - (1 + 1 / 2)
     else jd + 1 / 2)%R in
  let j := Z.quot (c_int d0) (4 * 365 + 1) in
  let d1 := (d0 - IZR (j * (4 * 365 + 1)))%R in
  let n := c_int d1 in
  let '(ja, d2, february) :=
    if 366 + 365 + 365 <=? n then (4 * j + 3 - 4712, (d1 - IZR (366 + 365 + 365))%R, 28)
    else if 366 + 365 <=? n then (4 * j + 2 - 4712, (d1 - IZR (366 + 365))%R, 28)
    else if 366 <=? n then (4 * j + 1 - 4712, (d1 - IZR 366)%R, 28)
    else
      let ja := 4 * j - 4712 in
      if gregorian && (Z.rem ja 100 =? 0) && negb (Z.rem ja 400 =? 0)
      then (ja, (if 59 <? n then d1 - 1 else d1)%R, 28)
      else (ja, d1, 29) in
  let '(mo, d) := month_loop (month_lengths february) 1 d2 in
  (if 0 <? ja then ja else ja - 1, mo, c_int d + 1).

(** apex.f90:3098-3140, TJUDA with FLAG > 0 and HOUR = 0: the Julian day of a date.  Months
    from 1 to 12 (the loops of the lines 3107-3114 have nothing to do). *)
Definition tjuda_jd (jahr monat tag : Z) : R :=
  let ja := if 0 <? jahr then jahr else jahr + 1 in
  let j := ja - 1 in
  let n := (j + 4713) * 365 + Z.quot (j + 4716) 4 in
  let february := if Z.rem ja 4 =? 0 then 29 else 28 in
  let '(n, february) :=
    if (1582 <? ja) || ((ja =? 1582) && (10 <? monat)) || ((ja =? 1582) && (monat =? 10) && (15 <=? tag))
    then (n - Z.quot j 100 + Z.quot j 400 + 2,
          if (Z.rem ja 100 =? 0) && negb (Z.rem ja 400 =? 0) then 28 else february)
    else (n, february) in
  let n := fold_left Z.add (firstn (Z.to_nat (monat - 1)) (month_lengths february)) n in
  (IZR (n + tag) - (1 + 1 / 2))%R.

(** apex.f90:2872-2874 *)
Definition JD0 : R := (2451544 + 1 / 2)%R.

(** apex.f90:2881-2893, TMJD with FLAG > 0, HOUR = MINUTE = 0 and SEC = 0: the day of a date *)
Definition tmjd_day (year month day : Z) : R :=
  let i :=
    if (1950 <=? year) && (year <? 2100) then
      let j := Z.quot (14 - month) 12 in
      let l := year - j - 1900 * Z.quot year 1900 + 100 * Z.quot 2000 (year + 1951) in
      day - 36496 + Z.quot (1461 * l) 4 + Z.quot (367 * (month - 2 + j * 12)) 12
    else nint (tjuda_jd year month day - JD0) in
  IZR i.

(** apex.f90:2967-2974, IDBL with I < 0: the digits before the point; 400 digits are more
    than a REAL*8 number has *)
Fixpoint digits_loop (fuel : nat) (rest : R) : Z :=
  match fuel with
  | O => 0
  | S fuel' => if Rlt_dec (999999999999999 / 1000000000000000) rest
               then digits_loop fuel' (rest * (1 / 10))%R + 1 else 0
  end.
Definition digits (d : R) : Z := digits_loop 400 (Rabs d).

(** apex.f90:2982-2991, IDBL(0.11111111111111111111D0,+1).  The value of the loop in the
    arithmetic of REAL*8 numbers *)
Definition significant_digits : Z := 16.

(** apex.f90:3176-3205, DBL: rounding to [i] decimals.  Simplification: numbers which are too
    large for INTEGER are rounded in the same way, not by a formatted output. *)
Definition dbl (d : R) (i : Z) : R :=
  let e := powerRZ 10 i in (IZR (nint (d * e)) / e)%R.

(** apex.f90:2897-2925, TMJD with FLAG <= 0: the date, the hour, the minute and the second *)
Definition tmjd_civil (mjd : R) : (Z * Z * Z) * (Z * Z * R) :=
  let other :=
    let date := tjuda_date (mjd + JD0) in
    let '(year, month, day) := date in
    let i := nint (tjuda_jd year month day - JD0) in
    (date, ((mjd - IZR i) * 24)%R) in
  let '(date, hours) :=
    if Rlt_dec (-18262) mjd then
      if Rlt_dec mjd 36525 then
        let i := c_int (mjd + 18262) in
        let l := Z.quot (4000 * (i + 18204)) 1461001 in
        let n := i - Z.quot (1461 * l) 4 + 18234 in
        let m := Z.quot (80 * n) 2447 in
        let day := n - Z.quot (2447 * m) 80 in
        let j := Z.quot m 11 in
        let month := m + 2 - 12 * j in
        let year := 1900 + l + j in
        ((year, month, day), ((mjd - IZR (i - 18262)) * 24)%R)
      else other
    else other in
  let hour := c_int hours in
  let minutes := ((hours - IZR hour) * 60)%R in
  let minute := c_int minutes in
  let seconds := ((minutes - IZR minute) * 60)%R in
  (date, (hour, minute, dbl seconds (significant_digits - digits mjd - 6))).

(** eval_subsol.f90:54-59 and eval_mlt.f90:62-67: the day of the year *)
Definition day_of_year (mjd : R) (year : Z) : Z :=
  c_int mjd - nint (tmjd_day year 1 1) + 1.
