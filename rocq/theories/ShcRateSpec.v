(** The rates of a SHC file. *)
From Coq Require Import List ZArith Reals.
From Verif Require Import TimeModel ShcModel ShcSpec SeriesSpec ShcLoadSpec.
Import ListNotations.
Open Scope R_scope.

(** The time scale of the interpolation: the time of a column, given in decimal years, and a time in MJD2000 *)
Definition column_time (years : bool) (y : R) : R := if years then y else decimal_year_to_mjd2k y.
Definition scale_time (years : bool) (t : R) : R := if years then mjd2k_to_decimal_year t else t.

(** Two columns of the file with no other one in between *)
Definition two_columns (d : @shc_data R) (ta tb : R) : Prop := In ta (shc_t d) /\ In tb (shc_t d) /\ neighbours (shc_t d) ta tb.
(** The time is between the columns, or before or after them if they are the first or last ones. *)
Definition in_columns (years : bool) (d : @shc_data R) (ta tb t : R) : Prop :=
  (column_time years ta <= scale_time years t \/ first_time (shc_t d) ta) /\ (scale_time years t <= column_time years tb \/ last_time (shc_t d) tb).

(** The slope between the values of the columns; zero if the file does not list the coefficient *)
Definition shc_rate (years : bool) (d : @shc_data R) (ta tb : R) (n m : Z) (v : R) : Prop :=
  (exists ca cb, file_value d n m ta ca /\ file_value d n m tb cb /\ v = (cb - ca) / (column_time years tb - column_time years ta)) \/
  ~ file_lists d n m /\ v = 0.
