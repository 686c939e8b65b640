(** C106: the truncation error of the models loaded from files *)
From Coq Require Import List ZArith Reals.
From Coquelicot Require Import Coquelicot.
From Verif Require Import Ord ROrd RbarOrd ArrModel CoefModel GeoModel ShEvalModel ShEvalSpec TextModel SparseSpec InterpSpec TimeModel YearSetModel
  ShcModel ShcSpec ShcLoadModel ShcLoadSpec WmmModel WmmSpec IgrfModel IgrfSpec EmmModel EmmSpec FieldModel FieldSpec FileFieldSpec FileFieldProofs FieldSizeSpec FieldTruncSpec FieldTruncProofs
  ShcExamples WmmExamples FieldExamples FileFieldExamples FieldTruncExamples.
Import ListNotations.
Open Scope R_scope.

(** A model loaded from a SHC file, evaluated with the maximum degrees K and K': the fields differ at most by the sizes of the degrees in
    between of the coefficients of the file at the time, and NaNs are returned for the same times. *)
Theorem C106_shc : forall to_int to_float years vstart vend file d N internal lo K K' mem mem' txs,
  shc_file to_int to_float file d -> proper_shc d -> proper_times years (shc_t d) -> degrees_up_to d N -> (Z.of_nat N < 2 ^ 24)%Z ->
  (K <= K')%nat -> (Z.of_nat K' < 2 ^ 24)%Z ->
  exists set out out', load_coeff_shc to_int to_float years vstart vend file = Parsed set /\
    model_eval_array (shc_validity set) [shc_leaf set] internal lo (Z.of_nat K) CT_GEOCENTRIC_SPHERICAL CT_GEOCENTRIC_SPHERICAL (1, 1, 1) mem txs = Ok out /\
    model_eval_array (shc_validity set) [shc_leaf set] internal lo (Z.of_nat K') CT_GEOCENTRIC_SPHERICAL CT_GEOCENTRIC_SPHERICAL (1, 1, 1) mem' txs = Ok out' /\
    truncated (shc_validity set) (fun u n m v => shc_value years d n m u v) internal lo K K' txs out out'.
Proof. exact shc_truncated. Qed.
Print Assumptions C106_shc.

(** The same for a WMM file, ... *)
Theorem C106_wmm : forall to_int to_float file epoch rows N internal lo K K' mem mem' txs,
  wmm_file to_int to_float file epoch rows -> proper_rows rows -> some_nonzero rows ->
  (forall r, In r rows -> (w_n r <= Z.of_nat N)%Z) -> (Z.of_nat N < 2 ^ 24)%Z -> (K <= K')%nat -> (Z.of_nat K' < 2 ^ 24)%Z ->
  exists td out out', load_coeff_wmm to_int to_float file = Parsed td /\
    model_eval_array (year_validity td) [year_leaf td] internal lo (Z.of_nat K) CT_GEOCENTRIC_SPHERICAL CT_GEOCENTRIC_SPHERICAL (1, 1, 1) mem txs = Ok out /\
    model_eval_array (year_validity td) [year_leaf td] internal lo (Z.of_nat K') CT_GEOCENTRIC_SPHERICAL CT_GEOCENTRIC_SPHERICAL (1, 1, 1) mem' txs = Ok out' /\
    truncated (Finite (decimal_year_to_mjd2k epoch), Finite (decimal_year_to_mjd2k (epoch + 5)))
      (fun u n m v => wmm_coefficient epoch rows n m (mjd2k_to_decimal_year u) v) internal lo K K' txs out out'.
Proof. exact wmm_truncated. Qed.
Print Assumptions C106_wmm.

(** ... an IGRF file ... *)
Theorem C106_igrf : forall to_int to_float file times rows t1 t2 N internal lo K K' mem mem' txs,
  igrf_file to_int to_float file times rows -> increasing times -> proper_igrf times rows ->
  nth_error times 0 = Some t1 -> nth_error times (length times - 1) = Some t2 ->
  (forall r, In r rows -> (i_n r <= Z.of_nat N)%Z) -> (Z.of_nat N < 2 ^ 24)%Z -> (K <= K')%nat -> (Z.of_nat K' < 2 ^ 24)%Z ->
  exists td out out', load_coeff_igrf to_int to_float file = Parsed td /\
    model_eval_array (year_validity td) [year_leaf td] internal lo (Z.of_nat K) CT_GEOCENTRIC_SPHERICAL CT_GEOCENTRIC_SPHERICAL (1, 1, 1) mem txs = Ok out /\
    model_eval_array (year_validity td) [year_leaf td] internal lo (Z.of_nat K') CT_GEOCENTRIC_SPHERICAL CT_GEOCENTRIC_SPHERICAL (1, 1, 1) mem' txs = Ok out' /\
    truncated (Finite (decimal_year_to_mjd2k t1), Finite (decimal_year_to_mjd2k (t2 + 5)))
      (fun u n m v => igrf_coefficient times rows n m (mjd2k_to_decimal_year u) v) internal lo K K' txs out out'.
Proof. exact igrf_truncated. Qed.
Print Assumptions C106_igrf.

(** ... and the two files of the EMM. *)
Theorem C106_emm : forall to_int to_float file_static file_secvar epoch variable constant secvar N internal lo K K' mem mem' txs,
  emm_file to_int to_float file_static epoch (variable ++ constant) -> emm_file to_int to_float file_secvar epoch secvar ->
  same_rows variable secvar -> proper_emm (variable ++ constant) -> secvar <> [] -> nonzero_rows constant ->
  (forall r, In r (variable ++ constant) -> (m_n r <= Z.of_nat N)%Z) -> (Z.of_nat N < 2 ^ 24)%Z -> (K <= K')%nat -> (Z.of_nat K' < 2 ^ 24)%Z ->
  exists emm out out', load_coeff_emm to_int to_float file_static file_secvar = Parsed emm /\
    model_eval_array (emm_validity emm) (emm_items emm) internal lo (Z.of_nat K) CT_GEOCENTRIC_SPHERICAL CT_GEOCENTRIC_SPHERICAL (1, 1, 1) mem txs = Ok out /\
    model_eval_array (emm_validity emm) (emm_items emm) internal lo (Z.of_nat K') CT_GEOCENTRIC_SPHERICAL CT_GEOCENTRIC_SPHERICAL (1, 1, 1) mem' txs = Ok out' /\
    truncated (Finite (decimal_year_to_mjd2k epoch), Finite (decimal_year_to_mjd2k (epoch + 5)))
      (fun u n m v => emm_coefficient epoch variable constant secvar n m (mjd2k_to_decimal_year u) v) internal lo K K' txs out out'.
Proof. exact emm_truncated. Qed.
Print Assumptions C106_emm.

(** The WMM file of C99 at the begin of 2022: the bound for the degrees 0 and 1 at the surface is finite and not zero. *)
Example C106_example_wmm :
  coefficient_table (fun n m v => wmm_coefficient 2020 ex_wmm_rows n m (mjd2k_to_decimal_year (decimal_year_to_mjd2k 2022)) v) (-1) 1 ex_wmm_gh /\
  0 < remaining_field true ex_wmm_gh 0 1 6371.2.
Proof. exact ex_wmm_truncated. Qed.
