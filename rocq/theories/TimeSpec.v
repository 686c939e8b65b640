(** Specification of the calendar: the Julian calendar until 4 October 1582, the
    Gregorian calendar from 15 October 1582.  Years are numbered astronomically (the
    year 0 is 1 BC). *)

From Coq Require Import Bool ZArith.
Open Scope Z_scope.

Definition leap (year : Z) : Prop :=
  if year <=? 1582 then year mod 4 = 0
  else year mod 4 = 0 /\ (year mod 100 <> 0 \/ year mod 400 = 0).

(** [month_length y m n]: the month [m] of the year [y] ends with the day [n] *)
Inductive month_length (y : Z) : Z -> Z -> Prop :=
  | len31 m : m = 1 \/ m = 3 \/ m = 5 \/ m = 7 \/ m = 8 \/ m = 10 \/ m = 12 -> month_length y m 31
  | len30 m : m = 4 \/ m = 6 \/ m = 9 \/ m = 11 -> month_length y m 30
  | len29 : leap y -> month_length y 2 29
  | len28 : ~ leap y -> month_length y 2 28.

(** The date of the next day *)
Inductive next_date : Z * Z * Z -> Z * Z * Z -> Prop :=
  | next_reform : next_date (1582, 10, 4) (1582, 10, 15)
  | next_day y m d n : month_length y m n -> d < n -> (y, m, d) <> (1582, 10, 4) ->
      next_date (y, m, d) (y, m, d + 1)
  | next_month y m d : month_length y m d -> m < 12 -> next_date (y, m, d) (y, m + 1, 1)
  | next_year y d : month_length y 12 d -> next_date (y, 12, d) (y + 1, 1, 1).

(** A date of the calendar *)
Definition valid_date (date : Z * Z * Z) : Prop :=
  let '(y, m, d) := date in exists n, month_length y m n /\ 1 <= d <= n.

(** The days for which the formulas are meant: from 1 March of the year -4716 (4717 BC) on *)
Definition first_day : Z := -2452946.

(** The range of the C type int *)
Definition int32 (x : Z) : Prop := - 2 ^ 31 <= x < 2 ^ 31.
