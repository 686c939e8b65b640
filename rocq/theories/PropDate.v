(** Property C81: see properties.jsonl. *)

From Coq Require Import ZArith Reals.
From Verif Require Import CoefModel TimeModel TimeSpec DateModel DateSpec DateProofs.
Open Scope Z_scope.

(** C81: the decimal year of a datetime object is in its year, ... *)
Theorem C81_defined : forall t, valid_datetime t -> dt_aware t = false -> dt_year t < 9999 ->
  exists v, datetime_to_decimal_year (Some t) = Ok v /\ (IZR (dt_year t) <= v < IZR (dt_year t) + 1)%R.
Proof. exact decimal_defined. Qed.
Print Assumptions C81_defined.

(** ... a whole number only at the start of the year, ... *)
Theorem C81_start_of_year : forall t, valid_datetime t -> dt_aware t = false -> dt_year t < 9999 ->
  datetime_to_decimal_year (Some t) = Ok (IZR (dt_year t)) <->
  dt_month t = 1 /\ dt_day t = 1 /\ hours_of t = 0%R.
Proof. exact decimal_first. Qed.
Print Assumptions C81_start_of_year.

(** ... and increases with the time. *)
Theorem C81_increasing : forall a b va vb, valid_datetime a -> valid_datetime b ->
  datetime_to_decimal_year (Some a) = Ok va -> datetime_to_decimal_year (Some b) = Ok vb ->
  earlier a b -> (va < vb)%R.
Proof. exact decimal_increasing. Qed.
Print Assumptions C81_increasing.

(** It is the decimal year which mjd2000_to_decimal_year gives for the same date and time;
    but only from 1583 on, ... *)
Theorem C81_agrees_partial : forall dt t, valid_datetime dt -> dt_aware dt = false -> 1583 <= dt_year dt < 9999 ->
  (IZR first_day <= t)%R -> mjd2k_to_date t = (date_of dt, hours_of dt) ->
  datetime_to_decimal_year (Some dt) = Ok (mjd2k_to_decimal_year t).
Proof. exact decimal_agrees. Qed.
Print Assumptions C81_agrees_partial.

(** ... the dates before are of two calendars. *)
Theorem C81_agrees_refuted : exists dt t, valid_datetime dt /\ dt_aware dt = false /\ dt_year dt < 9999 /\
  (IZR first_day <= t)%R /\ mjd2k_to_date t = (date_of dt, hours_of dt) /\
  datetime_to_decimal_year (Some dt) <> Ok (mjd2k_to_decimal_year t).
Proof. exact decimal_agrees_refuted. Qed.
Print Assumptions C81_agrees_refuted.

(** Other objects and times with a time zone are refused ... *)
Theorem C81_refused : datetime_to_decimal_year None = Err TypeError /\
  forall t, valid_datetime t -> dt_aware t = true -> dt_year t < 9999 ->
    datetime_to_decimal_year (Some t) = Err TypeError.
Proof. exact decimal_errors. Qed.
Print Assumptions C81_refused.

(** ... and so are all the times of the last year of the class. *)
Theorem C81_last_year_refuted : forall t, valid_datetime t -> dt_year t = 9999 ->
  datetime_to_decimal_year (Some t) = Err ValueError.
Proof. exact decimal_9999. Qed.
Print Assumptions C81_last_year_refuted.

Example C81_example : valid_datetime dt_example /\
  mjd2k_to_date (366 + 182 + 1 / 2) = (date_of dt_example, hours_of dt_example) /\
  datetime_to_decimal_year (Some dt_example) = Ok (2001 + 1 / 2)%R.
Proof. exact ex_datetime. Qed.
