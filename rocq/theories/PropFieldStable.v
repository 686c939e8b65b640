(** C108: the change of the field with the coefficients and the time *)
From Coq Require Import List ZArith Reals.
From Coquelicot Require Import Coquelicot.
From Verif Require Import Ord ROrd RbarOrd ArrModel CoefModel GeoModel ShEvalModel ShEvalSpec TextModel SparseSpec TimeModel YearSetModel WmmModel WmmSpec
  FieldModel FieldSpec FileFieldProofs FieldSizeSpec FieldStableSpec FieldRateSpec TruncationExamples FieldStableProofs WmmExamples FieldRateProofs.
Import ListNotations.
Open Scope R_scope.

(** The gradients of two sets of coefficients differ at most by the bound of C106 for the differences of the coefficients. *)
Theorem C108_gradient : forall csize deg N coef coef' internal lat lon rad mem mem' g g',
  (1 <= csize < 2 ^ 50)%Z -> expansion_degree csize deg N -> -90 <= lat <= 90 -> rad <> 0 ->
  sheval (nd0 (lat, lon, rad)) csize (nd0 coef) CT_GEOCENTRIC_SPHERICAL CT_GEOCENTRIC_SPHERICAL SM_GRADIENT internal deg
    1 (1, 1, 1) mem = Ok ([], [(None, Some g)]) ->
  sheval (nd0 (lat, lon, rad)) csize (nd0 coef') CT_GEOCENTRIC_SPHERICAL CT_GEOCENTRIC_SPHERICAL SM_GRADIENT internal deg
    1 (1, 1, 1) mem' = Ok ([], [(None, Some g')]) ->
  vector_length (vector_minus g g') <=
    whole_field internal (coefficient_difference (fun n m => coef (n * (n + 1) / 2 + m)%nat) (fun n m => coef' (n * (n + 1) / 2 + m)%nat)) N rad.
Proof. exact sheval_stable. Qed.
Print Assumptions C108_gradient.

(** The same for the fields of C98 to C103 *)
Theorem C108_field : forall internal gh gh' N lat lon rad f f', -90 <= lat <= 90 -> rad <> 0 ->
  field_of internal gh N lat lon rad f -> field_of internal gh' N lat lon rad f' ->
  vector_length (vector_minus f f') <= whole_field internal (coefficient_difference gh gh') N rad.
Proof. exact field_stable. Qed.
Print Assumptions C108_field.

(** The fields of a WMM file at two valid times differ at most by the years in between times the bound of C106 for the rates of the file. *)
Theorem C108_wmm : forall to_int to_float file epoch rows N internal lo hi mem txs,
  wmm_file to_int to_float file epoch rows -> proper_rows rows -> some_nonzero rows ->
  (forall r, In r rows -> (w_n r <= Z.of_nat N)%Z) -> (Z.of_nat N < 2 ^ 24)%Z ->
  exists td out, load_coeff_wmm to_int to_float file = Parsed td /\
    model_eval_array (year_validity td) [year_leaf td] internal lo hi CT_GEOCENTRIC_SPHERICAL CT_GEOCENTRIC_SPHERICAL (1, 1, 1) mem txs = Ok out /\
    forall i j u u' lat lon rad f f' sv, nth_error txs i = Some (Some u, (lat, lon, rad)) -> nth_error txs j = Some (Some u', (lat, lon, rad)) ->
      nth_error out i = Some (Some f) -> nth_error out j = Some (Some f') -> -90 <= lat <= 90 -> rad <> 0 ->
      coefficient_table (wmm_rate rows) lo hi sv ->
      vector_length (vector_minus f f') <= Rabs (mjd2k_to_decimal_year u - mjd2k_to_decimal_year u') * whole_field internal sv N rad.
Proof. exact wmm_change. Qed.
Print Assumptions C108_wmm.

(** Each file has such rates. *)
Theorem C108_rates : forall rows N lo hi, (forall r, In r rows -> (w_n r <= Z.of_nat N)%Z) -> exists sv, coefficient_table (wmm_rate rows) lo hi sv.
Proof. exact rates_exist. Qed.
Print Assumptions C108_rates.

(** The difference of the axial dipole from no field *)
Example C108_example : whole_field true (coefficient_difference (fun n m => g10 (n * (n + 1) / 2 + m)%nat) (fun _ _ => (0, 0))) 1 6371.2 = 2.
Proof. exact ex_stable. Qed.
(** The WMM file of C99 *)
Example C108_example_rates : wmm_rate ex_wmm_rows 1 (-1) (-25) /\ wmm_rate ex_wmm_rows 1 0 6.
Proof. exact ex_rate. Qed.
