(** What is said about datetime objects. *)

From Coq Require Import Bool ZArith Reals.
From Verif Require Import DateModel.
Open Scope Z_scope.

(** The proleptic Gregorian calendar: leap years and lengths of the months *)
Definition gregorian_leap (year : Z) : Prop :=
  year mod 4 = 0 /\ (year mod 100 <> 0 \/ year mod 400 = 0).

Inductive gregorian_month (y : Z) : Z -> Z -> Prop :=
  | g31 m : m = 1 \/ m = 3 \/ m = 5 \/ m = 7 \/ m = 8 \/ m = 10 \/ m = 12 -> gregorian_month y m 31
  | g30 m : m = 4 \/ m = 6 \/ m = 9 \/ m = 11 -> gregorian_month y m 30
  | g29 : gregorian_leap y -> gregorian_month y 2 29
  | g28 : ~ gregorian_leap y -> gregorian_month y 2 28.

(** The objects which the class datetime lets exist *)
Definition valid_datetime (t : datetime) : Prop :=
  1 <= dt_year t <= 9999 /\
  (exists n, gregorian_month (dt_year t) (dt_month t) n /\ 1 <= dt_day t <= n) /\
  0 <= dt_hour t < 24 /\ 0 <= dt_minute t < 60 /\ 0 <= dt_second t < 60 /\
  0 <= dt_microsecond t < 1000000.

(** The date and the hours of the day *)
Definition date_of (t : datetime) : Z * Z * Z := (dt_year t, dt_month t, dt_day t).
Definition hours_of (t : datetime) : R :=
  (IZR (dt_hour t) + IZR (dt_minute t) / 60 + IZR (dt_second t) / 3600 +
   IZR (dt_microsecond t) / 3600000000)%R.

(** Earlier: the order of the fields *)
Definition earlier_date (a b : Z * Z * Z) : Prop :=
  let '(y, m, d) := a in let '(y', m', d') := b in
  y < y' \/ y = y' /\ (m < m' \/ m = m' /\ d < d').
Definition earlier (a b : datetime) : Prop :=
  earlier_date (date_of a) (date_of b) \/
  date_of a = date_of b /\ (hours_of a < hours_of b)%R.
