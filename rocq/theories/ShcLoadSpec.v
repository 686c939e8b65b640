(** Specification of the coefficients defined by a SHC file. *)

From Coq Require Import List ZArith Reals.
From Verif Require Import Ord ROrd TimeModel ShcModel ShcSpec SparseSpec InterpSpec SeriesSpec.
Import ListNotations.
Open Scope R_scope.

(** Each degree and order, within the usual limits, is listed once, with a value for each time. *)
Definition proper_shc (d : @shc_data R) : Prop :=
  shc_nm d <> [] /\
  (forall i row, nth_error (shc_nm d) i = Some row -> exists n m, row = [n; m] /\ valid_nm n m) /\
  (forall i j row, nth_error (shc_nm d) i = Some row -> nth_error (shc_nm d) j = Some row -> i = j) /\
  (forall c, In c (shc_gh d) -> length c = length (shc_t d)).

(** the value of degree n and order m in a column of the file, and the time of the column *)
Definition file_value (d : @shc_data R) (n m : Z) (t v : R) : Prop :=
  exists i c k, nth_error (shc_nm d) i = Some [n; m] /\ nth_error (shc_gh d) i = Some c /\
    nth_error (shc_t d) k = Some t /\ nth_error c k = Some v.

Definition file_lists (d : @shc_data R) (n m : Z) : Prop := In [n; m] (shc_nm d).

(** The coefficient at time t, with the times of the columns converted: on the line through the two columns around the time.
    Before the first and after the last column it is on the line through the first or last two. *)
Definition shc_coefficient (d : @shc_data R) (conv : R -> R) (n m : Z) (t v : R) : Prop :=
  (exists ta ca tb cb, file_value d n m ta ca /\ file_value d n m tb cb /\ neighbours (shc_t d) ta tb /\
     (conv ta <= t \/ first_time (shc_t d) ta) /\ (t <= conv tb \/ last_time (shc_t d) tb) /\
     v = line (conv ta) ca (conv tb) cb t) \/
  ~ file_lists d n m /\ v = 0.

(** The value of the single column, at any time *)
Definition shc_constant (d : @shc_data R) (n m : Z) (v : R) : Prop :=
  (exists y, file_value d n m y v) \/ ~ file_lists d n m /\ v = 0.

(** The years of which the conversion is exact: not the last days of the year 1582 *)
Definition regular_year (y : R) : Prop := -4715 <= y /\ ~ (1582 + 355 / 365 <= y < 1583).
(** The validity in decimal years: that of the arguments, of the header, or that of the columns *)
Definition start_year (arg : option R) (d : @shc_data R) (y : R) : Prop :=
  match arg, h_validity (shc_head d) with
  | Some x, _ => y = x
  | None, Some (x, _) => y = x
  | None, None => In y (shc_t d) /\ first_time (shc_t d) y
  end.
Definition end_year (arg : option R) (d : @shc_data R) (y : R) : Prop :=
  match arg, h_validity (shc_head d) with
  | Some x, _ => y = x
  | None, Some (_, x) => y = x
  | None, None => In y (shc_t d) /\ last_time (shc_t d) y
  end.

(** The coefficient at a time given in MJD2000: interpolated in MJD2000 or in decimal years *)
Definition shc_value (years : bool) (d : @shc_data R) (n m : Z) (t v : R) : Prop :=
  length (shc_t d) = 1%nat /\ shc_constant d n m v \/
  (2 <= length (shc_t d))%nat /\
    if years then shc_coefficient d (fun y => y) n m (mjd2k_to_decimal_year t) v
    else shc_coefficient d decimal_year_to_mjd2k n m t v.

(** Different times; with the interpolation in MJD2000 those for which the conversion is exact *)
Definition proper_times (years : bool) (times : list R) : Prop :=
  times <> [] /\ distinct_times times /\
  (years = false -> (2 <= length times)%nat -> forall y, In y times -> regular_year y).
