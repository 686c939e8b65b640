(** C99: from WMM, IGRF and EMM files to the field *)
From Coq Require Import List ZArith Reals.
From Coquelicot Require Import Coquelicot.
From Verif Require Import Ord ROrd RbarOrd ArrModel CoefModel GeoModel ShEvalModel ShEvalSpec TextModel SparseSpec InterpSpec TimeModel YearSetModel
  WmmModel WmmSpec IgrfModel IgrfSpec EmmModel EmmSpec FieldModel FieldSpec FileFieldSpec FileFieldProofs
  ShcExamples WmmExamples IgrfExamples EmmExamples FieldExamples FileFieldExamples.
Import ListNotations.
Open Scope R_scope.

(** A model loaded from a WMM file, evaluated for arrays of times and locations, or for one time and any array of locations: NaNs
    outside of the five years from the epoch and for NaN times, otherwise minus the gradient of the potential whose coefficients are those
    of the epoch plus the rates times the elapsed years.
    Missing: between the poles and the latitudes with a cosine of 1e-10 the eastward component is that of the orders up to 1 (see [field_of]
    and C30_near_pole_refuted). *)
Theorem C99_wmm_partial : forall to_int to_float file epoch rows N internal lo hi mem,
  wmm_file to_int to_float file epoch rows -> proper_rows rows -> some_nonzero rows ->
  (forall r, In r rows -> (w_n r <= Z.of_nat N)%Z) -> (Z.of_nat N < 2 ^ 24)%Z ->
  exists td, load_coeff_wmm to_int to_float file = Parsed td /\
    let result := field_result (Finite (decimal_year_to_mjd2k epoch), Finite (decimal_year_to_mjd2k (epoch + 5)))
      (fun u n m v => wmm_coefficient epoch rows n m (mjd2k_to_decimal_year u) v) internal lo hi N in
    (forall txs, exists out,
       model_eval_array (year_validity td) [year_leaf td] internal lo hi CT_GEOCENTRIC_SPHERICAL CT_GEOCENTRIC_SPHERICAL (1, 1, 1) mem txs = Ok out /\
       Forall2 result txs out) /\
    (forall t location, exists out,
       model_eval_scalar (year_validity td) [year_leaf td] internal lo hi CT_GEOCENTRIC_SPHERICAL CT_GEOCENTRIC_SPHERICAL (1, 1, 1) mem t location
         = Ok (dims location, out) /\
       Forall2 result (map (fun ix => (t, at_index location ix)) (indices (dims location))) out).
Proof. exact wmm_field. Qed.
Print Assumptions C99_wmm_partial.

(** The same for an IGRF file: valid from the first time to five years behind the last one.
    Missing: as above *)
Theorem C99_igrf_partial : forall to_int to_float file times rows t1 t2 N internal lo hi mem,
  igrf_file to_int to_float file times rows -> increasing times -> proper_igrf times rows ->
  nth_error times 0 = Some t1 -> nth_error times (length times - 1) = Some t2 ->
  (forall r, In r rows -> (i_n r <= Z.of_nat N)%Z) -> (Z.of_nat N < 2 ^ 24)%Z ->
  exists td, load_coeff_igrf to_int to_float file = Parsed td /\
    let result := field_result (Finite (decimal_year_to_mjd2k t1), Finite (decimal_year_to_mjd2k (t2 + 5)))
      (fun u n m v => igrf_coefficient times rows n m (mjd2k_to_decimal_year u) v) internal lo hi N in
    (forall txs, exists out,
       model_eval_array (year_validity td) [year_leaf td] internal lo hi CT_GEOCENTRIC_SPHERICAL CT_GEOCENTRIC_SPHERICAL (1, 1, 1) mem txs = Ok out /\
       Forall2 result txs out) /\
    (forall t location, exists out,
       model_eval_scalar (year_validity td) [year_leaf td] internal lo hi CT_GEOCENTRIC_SPHERICAL CT_GEOCENTRIC_SPHERICAL (1, 1, 1) mem t location
         = Ok (dims location, out) /\
       Forall2 result (map (fun ix => (t, at_index location ix)) (indices (dims location))) out).
Proof. exact igrf_field. Qed.
Print Assumptions C99_igrf_partial.

(** The same for the two files of the EMM: the model is a combination of the coefficients with and of those without a secular variation.
    Missing: as above *)
Theorem C99_emm_partial : forall to_int to_float file_static file_secvar epoch variable constant secvar N internal lo hi mem,
  emm_file to_int to_float file_static epoch (variable ++ constant) -> emm_file to_int to_float file_secvar epoch secvar ->
  same_rows variable secvar -> proper_emm (variable ++ constant) -> secvar <> [] -> nonzero_rows constant ->
  (forall r, In r (variable ++ constant) -> (m_n r <= Z.of_nat N)%Z) -> (Z.of_nat N < 2 ^ 24)%Z ->
  exists emm, load_coeff_emm to_int to_float file_static file_secvar = Parsed emm /\
    let result := field_result (Finite (decimal_year_to_mjd2k epoch), Finite (decimal_year_to_mjd2k (epoch + 5)))
      (fun u n m v => emm_coefficient epoch variable constant secvar n m (mjd2k_to_decimal_year u) v) internal lo hi N in
    (forall txs, exists out,
       model_eval_array (emm_validity emm) (emm_items emm) internal lo hi CT_GEOCENTRIC_SPHERICAL CT_GEOCENTRIC_SPHERICAL (1, 1, 1) mem txs = Ok out /\
       Forall2 result txs out) /\
    (forall t location, exists out,
       model_eval_scalar (emm_validity emm) (emm_items emm) internal lo hi CT_GEOCENTRIC_SPHERICAL CT_GEOCENTRIC_SPHERICAL (1, 1, 1) mem t location
         = Ok (dims location, out) /\
       Forall2 result (map (fun ix => (t, at_index location ix)) (indices (dims location))) out).
Proof. exact emm_field. Qed.
Print Assumptions C99_emm_partial.

(** At each time the files have such coefficients. *)
Theorem C99_wmm_coefficients : forall epoch rows N lo hi u, (forall r, In r rows -> (w_n r <= Z.of_nat N)%Z) ->
  exists gh, coefficient_table (fun n m v => wmm_coefficient epoch rows n m (mjd2k_to_decimal_year u) v) lo hi gh.
Proof. exact wmm_table. Qed.
Print Assumptions C99_wmm_coefficients.

Theorem C99_igrf_coefficients : forall times rows N lo hi u, times <> [] -> proper_igrf times rows ->
  (forall r, In r rows -> (i_n r <= Z.of_nat N)%Z) ->
  exists gh, coefficient_table (fun n m v => igrf_coefficient times rows n m (mjd2k_to_decimal_year u) v) lo hi gh.
Proof. exact igrf_table. Qed.
Print Assumptions C99_igrf_coefficients.

Theorem C99_emm_coefficients : forall epoch variable constant secvar N lo hi u, same_rows variable secvar ->
  (forall r, In r (variable ++ constant) -> (m_n r <= Z.of_nat N)%Z) ->
  exists gh, coefficient_table (fun n m v => emm_coefficient epoch variable constant secvar n m (mjd2k_to_decimal_year u) v) lo hi gh.
Proof. exact emm_table. Qed.
Print Assumptions C99_emm_coefficients.

Example C99_example_wmm : wmm_file ex_int ex_real ex_wmm_lines 2020 ex_wmm_rows /\ proper_rows ex_wmm_rows /\ some_nonzero ex_wmm_rows.
Proof. exact (conj ex_wmm_file ex_wmm_proper). Qed.
Example C99_example_igrf : igrf_file ex_int ex_real ex_igrf_lines [2010; 2015] ex_igrf_rows /\ proper_igrf [2010; 2015] ex_igrf_rows /\ increasing [2010; 2015].
Proof. exact (conj ex_igrf_file ex_igrf_proper). Qed.
Example C99_example_emm : (emm_file ex_int ex_real ex_emm_static 2015 (ex_emm_variable ++ ex_emm_constant) /\
    emm_file ex_int ex_real ex_emm_secvar 2015 ex_emm_rates) /\
  same_rows ex_emm_variable ex_emm_rates /\ proper_emm (ex_emm_variable ++ ex_emm_constant) /\ ex_emm_rates <> [] /\ nonzero_rows ex_emm_constant.
Proof. exact (conj ex_emm_files ex_emm_proper). Qed.
Example C99_example_degrees : (forall r, In r ex_wmm_rows -> (w_n r <= Z.of_nat 2)%Z) /\ (forall r, In r ex_igrf_rows -> (i_n r <= Z.of_nat 1)%Z) /\
  (forall r, In r (ex_emm_variable ++ ex_emm_constant) -> (m_n r <= Z.of_nat 2)%Z).
Proof. exact ex_file_degrees. Qed.
(** The WMM file at the begin of 2022 *)
Example C99_example_coefficients :
  coefficient_table (fun n m v => wmm_coefficient 2020 ex_wmm_rows n m (mjd2k_to_decimal_year (decimal_year_to_mjd2k 2022)) v) (-1) (-1) ex_wmm_gh.
Proof. exact ex_wmm_table. Qed.
Example C99_example_validity :
  in_validity (Finite (decimal_year_to_mjd2k 2020), Finite (decimal_year_to_mjd2k (2020 + 5))) (Some (decimal_year_to_mjd2k 2022)) /\
  ~ in_validity (Finite (decimal_year_to_mjd2k 2020), Finite (decimal_year_to_mjd2k (2020 + 5))) (Some (decimal_year_to_mjd2k 2019)) /\
  ~ in_validity (Finite (decimal_year_to_mjd2k 2020), Finite (decimal_year_to_mjd2k (2020 + 5))) None.
Proof. exact ex_file_validity. Qed.
Example C99_example_igrf_coefficient : igrf_coefficient [2010; 2015] ex_igrf_rows 1 (-1) 2018 4719.
Proof. exact ex_igrf_coefficient. Qed.
Example C99_example_emm_coefficient : emm_coefficient 2015 ex_emm_variable ex_emm_constant ex_emm_rates 1 (-1) 2017 4736.
Proof. exact ex_emm_coefficient. Qed.
