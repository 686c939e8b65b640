(** Model of datetime_to_decimal_year of time_util.py.

    The class datetime.datetime of the Python library is modelled by its fields and by the
    formulas of its pure Python implementation (datetime.py of CPython): the proleptic
    Gregorian calendar, years from 1 to 9999, differences exact in microseconds.  The
    doubles are reals. *)

From Coq Require Import Bool ZArith Reals.
From Verif Require Import CoefModel.
Open Scope Z_scope.

(** The fields of a datetime.datetime; [dt_aware] tells whether it has a time zone, in
    which case the fields are in UTC (simplification: other offsets are not modelled, no
    result depends on them) *)
Record datetime := {
  dt_year : Z; dt_month : Z; dt_day : Z;
  dt_hour : Z; dt_minute : Z; dt_second : Z; dt_microsecond : Z;
  dt_aware : bool
}.

(** CPython datetime.py, _is_leap *)
Definition py_is_leap (year : Z) : bool :=
  (year mod 4 =? 0) && (negb (year mod 100 =? 0) || (year mod 400 =? 0)).

(** CPython datetime.py, _days_before_year *)
Definition days_before_year (year : Z) : Z :=
  let y := year - 1 in y * 365 + y / 4 - y / 100 + y / 400.

(** CPython datetime.py, _DAYS_BEFORE_MONTH *)
Definition days_before_month_table (month : Z) : Z :=
  match month with
  | 1 => 0 | 2 => 31 | 3 => 59 | 4 => 90 | 5 => 120 | 6 => 151
  | 7 => 181 | 8 => 212 | 9 => 243 | 10 => 273 | 11 => 304 | _ => 334
  end.

(** CPython datetime.py, _days_before_month *)
Definition days_before_month (year month : Z) : Z :=
  days_before_month_table month + (if (2 <? month) && py_is_leap year then 1 else 0).

(** CPython datetime.py, date.toordinal *)
Definition toordinal (t : datetime) : Z :=
  days_before_year (dt_year t) + days_before_month (dt_year t) (dt_month t) + dt_day t.

(** Microseconds since the start of the day *)
Definition day_microseconds (t : datetime) : Z :=
  ((dt_hour t * 60 + dt_minute t) * 60 + dt_second t) * 1000000 + dt_microsecond t.

(** datetime(year=year, month=1, day=1) *)
Definition new_year (year : Z) : result datetime :=
  if (1 <=? year) && (year <=? 9999)
  then Ok (Build_datetime year 1 1 0 0 0 0 false)
  else Err ValueError.

(** datetime.__sub__: the difference in microseconds *)
Definition subtract (a b : datetime) : result Z :=
  if Bool.eqb (dt_aware a) (dt_aware b)
  then Ok ((toordinal a - toordinal b) * 86400000000 + (day_microseconds a - day_microseconds b))
  else Err TypeError.

(** timedelta.total_seconds *)
Definition total_seconds (microseconds : Z) : R := (IZR microseconds / 1000000)%R.

(** time_util.py:74-88; [None] is an object which is not a datetime *)
Definition datetime_to_decimal_year (time : option datetime) : result R :=
  match time with
  | None => Err TypeError
  | Some time =>
      bind (new_year (dt_year time)) (fun year_start =>
      bind (new_year (dt_year time + 1)) (fun next_year_start =>
      bind (subtract time year_start) (fun elapsed =>
      bind (subtract next_year_start year_start) (fun total =>
      Ok (IZR (dt_year time) + total_seconds elapsed / total_seconds total)%R))))
  end.
