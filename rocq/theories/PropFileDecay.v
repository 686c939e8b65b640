(** C107: the decay of the fields of the models loaded from SHC, IGRF and EMM files *)
From Coq Require Import List ZArith Reals.
From Coquelicot Require Import Coquelicot.
From Verif Require Import Ord ROrd RbarOrd ArrModel CoefModel GeoModel ShEvalModel ShEvalSpec TextModel SparseSpec InterpSpec TimeModel YearSetModel ShcModel ShcSpec ShcLoadModel ShcLoadSpec
  IgrfModel IgrfSpec EmmModel EmmSpec FieldModel FieldSpec FileFieldSpec FileFieldProofs FieldSizeSpec ShcExamples WmmExamples ShcLoadExamples IgrfExamples EmmExamples FileDecayProofs.
Import ListNotations.
Open Scope R_scope.

(** Files without a coefficient of degree 0: at any time the field at the radius [rad] is at most as long as the bound of C106, for the coefficients of
    the file at the time, at any smaller radius times the cube of the ratio of the radii. *)
Theorem C107_shc : forall to_int to_float years vstart vend file d N lo hi mem txs,
  shc_file to_int to_float file d -> proper_shc d -> proper_times years (shc_t d) -> degrees_up_to d N -> (Z.of_nat N < 2 ^ 24)%Z -> ~ file_lists d 0 0 ->
  exists set out, load_coeff_shc to_int to_float years vstart vend file = Parsed set /\
    model_eval_array (shc_validity set) [shc_leaf set] true lo hi CT_GEOCENTRIC_SPHERICAL CT_GEOCENTRIC_SPHERICAL (1, 1, 1) mem txs = Ok out /\
    forall i u lat lon rad r0 f gh, nth_error txs i = Some (Some u, (lat, lon, rad)) -> nth_error out i = Some (Some f) ->
      -90 <= lat <= 90 -> 0 < r0 <= rad -> file_coefficients years d lo hi u gh ->
      vector_length f <= (r0 / rad) ^ 3 * whole_field true gh N r0.
Proof. exact shc_decay. Qed.
Print Assumptions C107_shc.

Theorem C107_igrf : forall to_int to_float file times rows t1 t2 N lo hi mem txs,
  igrf_file to_int to_float file times rows -> increasing times -> proper_igrf times rows ->
  nth_error times 0 = Some t1 -> nth_error times (length times - 1) = Some t2 ->
  (forall r, In r rows -> (1 <= i_n r <= Z.of_nat N)%Z) -> (Z.of_nat N < 2 ^ 24)%Z ->
  exists td out, load_coeff_igrf to_int to_float file = Parsed td /\
    model_eval_array (year_validity td) [year_leaf td] true lo hi CT_GEOCENTRIC_SPHERICAL CT_GEOCENTRIC_SPHERICAL (1, 1, 1) mem txs = Ok out /\
    forall i u lat lon rad r0 f gh, nth_error txs i = Some (Some u, (lat, lon, rad)) -> nth_error out i = Some (Some f) ->
      -90 <= lat <= 90 -> 0 < r0 <= rad ->
      coefficient_table (fun n m v => igrf_coefficient times rows n m (mjd2k_to_decimal_year u) v) lo hi gh ->
      vector_length f <= (r0 / rad) ^ 3 * whole_field true gh N r0.
Proof. exact igrf_decay. Qed.
Print Assumptions C107_igrf.

Theorem C107_emm : forall to_int to_float file_static file_secvar epoch variable constant secvar N lo hi mem txs,
  emm_file to_int to_float file_static epoch (variable ++ constant) -> emm_file to_int to_float file_secvar epoch secvar ->
  same_rows variable secvar -> proper_emm (variable ++ constant) -> secvar <> [] -> nonzero_rows constant ->
  (forall r, In r (variable ++ constant) -> (1 <= m_n r <= Z.of_nat N)%Z) -> (Z.of_nat N < 2 ^ 24)%Z ->
  exists emm out, load_coeff_emm to_int to_float file_static file_secvar = Parsed emm /\
    model_eval_array (emm_validity emm) (emm_items emm) true lo hi CT_GEOCENTRIC_SPHERICAL CT_GEOCENTRIC_SPHERICAL (1, 1, 1) mem txs = Ok out /\
    forall i u lat lon rad r0 f gh, nth_error txs i = Some (Some u, (lat, lon, rad)) -> nth_error out i = Some (Some f) ->
      -90 <= lat <= 90 -> 0 < r0 <= rad ->
      coefficient_table (fun n m v => emm_coefficient epoch variable constant secvar n m (mjd2k_to_decimal_year u) v) lo hi gh ->
      vector_length f <= (r0 / rad) ^ 3 * whole_field true gh N r0.
Proof. exact emm_decay. Qed.
Print Assumptions C107_emm.

(** The files of C98 and C99 *)
Example C107_example_files : ~ file_lists ex_load_shc 0 0 /\ (forall r, In r ex_igrf_rows -> (1 <= i_n r <= Z.of_nat 1)%Z) /\
  (forall r, In r (ex_emm_variable ++ ex_emm_constant) -> (1 <= m_n r <= Z.of_nat 2)%Z).
Proof. exact ex_decay_files. Qed.
