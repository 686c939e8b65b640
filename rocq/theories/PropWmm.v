(** C56: WMM files *)

From Coq Require Import List ZArith Reals.
From Verif Require Import TextModel SparseModel SparseSpec SeriesSpec TimeModel YearSetModel WmmModel WmmSpec WmmProofs DegreeRangeProofs ShcExamples WmmExamples.
Open Scope R_scope.

(** The coefficients loaded from a WMM file: at any time the value at the epoch plus the rate times the years
    elapsed since the epoch; zero where the file has no coefficient or beyond the bounds of the degree.  The
    validity is five years from the epoch. *)
Theorem C56_secular_variation : forall to_int to_float file epoch rows,
  wmm_file to_int to_float file epoch rows -> proper_rows rows -> some_nonzero rows ->
  exists td, load_coeff_wmm to_int to_float file = Parsed td /\
    td_validity td = (decimal_year_to_mjd2k epoch, decimal_year_to_mjd2k (epoch + 5)) /\
    forall t lo hi, exists result, year_set_call td t lo hi = Some result /\
      forall n m v, valid_nm n m -> wmm_coefficient epoch rows n m (mjd2k_to_decimal_year t) v ->
        bounded_coefficient lo hi result n m v.
Proof. exact wmm_load. Qed.
Print Assumptions C56_secular_variation.

(** Nothing but WMM files is loaded. *)
Theorem C56_wmm_files_only : forall to_int to_float file td, load_coeff_wmm to_int to_float file = Parsed td ->
  exists epoch rows, wmm_file to_int to_float file epoch rows /\ some_nonzero rows.
Proof. exact wmm_load_sound. Qed.
Print Assumptions C56_wmm_files_only.

(** The range of the degrees given for a parsed file is the one of its coefficients. *)
Theorem C56_degrees : forall to_int to_float file p, parse_wmm_file to_int to_float file = Parsed p ->
  In (wmm_degree_min p) (map fst (wmm_nm p)) /\ In (wmm_degree_max p) (map fst (wmm_nm p)) /\
  (forall n, In n (map fst (wmm_nm p)) -> wmm_degree_min p <= n <= wmm_degree_max p)%Z.
Proof. exact wmm_degrees. Qed.
Print Assumptions C56_degrees.

Example C56_example : wmm_file ex_int ex_real ex_wmm_lines 2020 ex_wmm_rows.
Proof. exact ex_wmm_file. Qed.
Example C56_example_rows : proper_rows ex_wmm_rows /\ some_nonzero ex_wmm_rows.
Proof. exact ex_wmm_proper. Qed.
Example C56_example_coefficient : wmm_coefficient 2020 ex_wmm_rows 1 (-1) 2022 4602.
Proof. exact ex_wmm_coefficient. Qed.
