(** Model of the time series interpolated in decimal years, magnetic_model/coefficients.py:513-531. *)

From Coq Require Import List ZArith Reals.
From Verif Require Import Ord ROrd SparseModel SeriesModel TimeModel.

(** coefficients.py:513-531, SparseSHCoefficientsTimeDependentDecimalYear(indices, coefficients, times, to_mjd2000=...):
    the series is made without conversion of its times and the validity is converted afterwards. *)
Definition mk_year_set (indices : list (Z * Z)) (coefficients : list (list R)) (times : list R) (spline_order : Z)
  (vstart vend : option R) (to_mjd2000 : R -> R) : option (@time_dependent R R) :=
  match mk_time_dependent indices coefficients times spline_order vstart vend (fun x => x) with
  | None => None
  | Some td =>
      Some {| td_sparse := td_sparse td;
              td_validity := (to_mjd2000 (fst (td_validity td)), to_mjd2000 (snd (td_validity td)));
              td_times := td_times td; td_order := td_order td |}
  end.

(** coefficients.py:469-479 with convert_time = mjd2000_to_decimal_year (527), for one time *)
Definition year_set_call (td : @time_dependent R R) (t : R) (min_degree max_degree : Z) :=
  td_call td mjd2k_to_decimal_year (Some t) min_degree max_degree.
