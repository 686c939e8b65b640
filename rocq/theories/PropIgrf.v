(** C68: IGRF files *)

From Coq Require Import List ZArith Reals.
From Verif Require Import TextModel SparseModel SparseSpec InterpSpec SeriesSpec TimeModel YearSetModel
  IgrfModel IgrfSpec IgrfProofs DegreeRangeProofs ShcExamples WmmExamples IgrfExamples.
Import ListNotations.
Open Scope R_scope.

(** The coefficients loaded from an IGRF file: at any time linear in the decimal year between the given times, behind
    the last one the last value plus the predicted rate times the elapsed years; zero where the file has no
    coefficient or beyond the bounds of the degree.  The validity is from the first time to five years behind the last one. *)
Theorem C68_igrf_values : forall to_int to_float file times rows,
  igrf_file to_int to_float file times rows -> times <> [] -> increasing times -> proper_igrf times rows ->
  exists td, load_coeff_igrf to_int to_float file = Parsed td /\
    (forall t1 t2, nth_error times 0 = Some t1 -> nth_error times (length times - 1) = Some t2 ->
       td_validity td = (decimal_year_to_mjd2k t1, decimal_year_to_mjd2k (t2 + 5))) /\
    forall t lo hi, exists result, year_set_call td t lo hi = Some result /\
      (forall r v, In r rows -> igrf_value times r (mjd2k_to_decimal_year t) v ->
         bounded_coefficient lo hi result (i_n r) (i_m r) v) /\
      (forall n m, valid_nm n m -> (forall r, In r rows -> ~ (i_n r = n /\ i_m r = m)) -> coefficient result n m 0).
Proof. exact igrf_load. Qed.
Print Assumptions C68_igrf_values.

(** Nothing but IGRF files, with a value for each time in each row, is loaded. *)
Theorem C68_igrf_files_only : forall to_int to_float file td, load_coeff_igrf to_int to_float file = Parsed td ->
  exists times rows, igrf_file to_int to_float file times rows /\ times <> [] /\ rows <> [] /\
    forall r, In r rows -> length (i_values r) = length times.
Proof. exact igrf_load_sound. Qed.
Print Assumptions C68_igrf_files_only.

(** The range of the degrees given for a parsed file is the one of its coefficients. *)
Theorem C68_degrees : forall to_int to_float file p, parse_igrf_file to_int to_float file = Parsed p ->
  In (igrf_degree_min p) (map fst (igrf_nm p)) /\ In (igrf_degree_max p) (map fst (igrf_nm p)) /\
  (forall n, In n (map fst (igrf_nm p)) -> igrf_degree_min p <= n <= igrf_degree_max p)%Z.
Proof. exact igrf_degrees. Qed.
Print Assumptions C68_degrees.

Example C68_example : igrf_file ex_int ex_real ex_igrf_lines [2010; 2015]%R ex_igrf_rows.
Proof. exact ex_igrf_file. Qed.
Example C68_example_rows : proper_igrf [2010; 2015]%R ex_igrf_rows /\ increasing [2010; 2015]%R.
Proof. exact ex_igrf_proper. Qed.
Example C68_example_value :
  igrf_value [2010; 2015]%R {| i_n := 1; i_m := -1; i_values := [4944; 4797]%R; i_rate := -26 |} 2018 4719.
Proof. exact ex_igrf_value. Qed.
