(** C108: the change of the fields of the models loaded from IGRF and EMM files with the time *)
From Coq Require Import List ZArith Reals.
From Coquelicot Require Import Coquelicot.
From Verif Require Import Ord ROrd RbarOrd ArrModel CoefModel GeoModel ShEvalModel ShEvalSpec TextModel SparseSpec InterpSpec TimeModel YearSetModel
  IgrfModel IgrfSpec EmmModel EmmSpec FieldModel FieldSpec FileFieldSpec FileFieldProofs FieldSizeSpec FieldStableSpec IgrfRateSpec IgrfExamples EmmExamples
  IgrfRateProofs EmmRateProofs.
Import ListNotations.
Open Scope R_scope.

(** The fields of an IGRF file at two valid times between the same two times of the file, or both behind the last one, differ at most by the years in
    between times the bound of C106 for the rates of the file there. *)
Theorem C108_igrf : forall to_int to_float file times rows t1 t2 N internal lo hi mem txs,
  igrf_file to_int to_float file times rows -> increasing times -> proper_igrf times rows ->
  nth_error times 0 = Some t1 -> nth_error times (length times - 1) = Some t2 ->
  (forall r, In r rows -> (i_n r <= Z.of_nat N)%Z) -> (Z.of_nat N < 2 ^ 24)%Z ->
  exists td out, load_coeff_igrf to_int to_float file = Parsed td /\
    model_eval_array (year_validity td) [year_leaf td] internal lo hi CT_GEOCENTRIC_SPHERICAL CT_GEOCENTRIC_SPHERICAL (1, 1, 1) mem txs = Ok out /\
    forall i j u u' lat lon rad f f' k sv, nth_error txs i = Some (Some u, (lat, lon, rad)) -> nth_error txs j = Some (Some u', (lat, lon, rad)) ->
      nth_error out i = Some (Some f) -> nth_error out j = Some (Some f') -> -90 <= lat <= 90 -> rad <> 0 ->
      in_span times k (mjd2k_to_decimal_year u) -> in_span times k (mjd2k_to_decimal_year u') ->
      coefficient_table (igrf_rate times rows k) lo hi sv ->
      vector_length (vector_minus f f') <= Rabs (mjd2k_to_decimal_year u - mjd2k_to_decimal_year u') * whole_field internal sv N rad.
Proof. exact igrf_change. Qed.
Print Assumptions C108_igrf.

(** Each file has such rates. *)
Theorem C108_igrf_rates : forall times rows k N lo hi,
  proper_igrf times rows -> (k < length times)%nat -> (forall r, In r rows -> (i_n r <= Z.of_nat N)%Z) ->
  exists sv, coefficient_table (igrf_rate times rows k) lo hi sv.
Proof. exact igrf_rates_exist. Qed.
Print Assumptions C108_igrf_rates.

(** The fields of an EMM model at two valid times: the same with the rates of the second file *)
Theorem C108_emm : forall to_int to_float file_static file_secvar epoch variable constant secvar N internal lo hi mem txs,
  emm_file to_int to_float file_static epoch (variable ++ constant) -> emm_file to_int to_float file_secvar epoch secvar ->
  same_rows variable secvar -> proper_emm (variable ++ constant) -> secvar <> [] -> nonzero_rows constant ->
  (forall r, In r (variable ++ constant) -> (m_n r <= Z.of_nat N)%Z) -> (Z.of_nat N < 2 ^ 24)%Z ->
  exists emm out, load_coeff_emm to_int to_float file_static file_secvar = Parsed emm /\
    model_eval_array (emm_validity emm) (emm_items emm) internal lo hi CT_GEOCENTRIC_SPHERICAL CT_GEOCENTRIC_SPHERICAL (1, 1, 1) mem txs = Ok out /\
    forall i j u u' lat lon rad f f' sv, nth_error txs i = Some (Some u, (lat, lon, rad)) -> nth_error txs j = Some (Some u', (lat, lon, rad)) ->
      nth_error out i = Some (Some f) -> nth_error out j = Some (Some f') -> -90 <= lat <= 90 -> rad <> 0 ->
      coefficient_table (emm_rate secvar) lo hi sv ->
      vector_length (vector_minus f f') <= Rabs (mjd2k_to_decimal_year u - mjd2k_to_decimal_year u') * whole_field internal sv N rad.
Proof. exact emm_change. Qed.
Print Assumptions C108_emm.

(** Each file has such rates. *)
Theorem C108_emm_rates : forall secvar N lo hi,
  (forall r, In r secvar -> (m_n r <= Z.of_nat N)%Z) -> exists sv, coefficient_table (emm_rate secvar) lo hi sv.
Proof. exact emm_rates_exist. Qed.
Print Assumptions C108_emm_rates.

(** The files of C99 *)
Example C108_example_igrf : in_span [2010; 2015] 0 2011 /\ in_span [2010; 2015] 0 2015 /\ in_span [2010; 2015] 1 2018 /\
  igrf_rate [2010; 2015] ex_igrf_rows 0 1 (-1) ((4797 - 4944) / (2015 - 2010)) /\ igrf_rate [2010; 2015] ex_igrf_rows 1 1 (-1) (-26).
Proof. exact ex_igrf_rate. Qed.
Example C108_example_emm : emm_rate ex_emm_rates 1 (-1) (-30) /\ emm_rate ex_emm_rates 2 0 0.
Proof. exact ex_emm_rate. Qed.
