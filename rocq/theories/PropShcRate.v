(** C108: the change of the field of a model loaded from a SHC file with the time *)
From Coq Require Import List ZArith Reals.
From Coquelicot Require Import Coquelicot.
From Verif Require Import Ord ROrd RbarOrd ArrModel CoefModel GeoModel ShEvalModel ShEvalSpec TextModel SparseSpec InterpSpec TimeModel YearSetModel
  ShcModel ShcSpec ShcLoadModel ShcLoadSpec FieldModel FieldSpec FieldSizeSpec FieldStableSpec ShcRateSpec ShcLoadExamples ShcRateProofs.
Import ListNotations.
Open Scope R_scope.

(** At two valid times between the same two columns of the file, or both before the first or after the last column, the fields differ at most by the
    time in between, in the scale of the interpolation, times the bound of C106 for the slopes between the columns. *)
Theorem C108_shc : forall to_int to_float years vstart vend file d N internal lo hi mem txs,
  shc_file to_int to_float file d -> proper_shc d -> proper_times years (shc_t d) -> degrees_up_to d N -> (Z.of_nat N < 2 ^ 24)%Z ->
  exists set out, load_coeff_shc to_int to_float years vstart vend file = Parsed set /\
    model_eval_array (shc_validity set) [shc_leaf set] internal lo hi CT_GEOCENTRIC_SPHERICAL CT_GEOCENTRIC_SPHERICAL (1, 1, 1) mem txs = Ok out /\
    forall i j u u' lat lon rad f f' ta tb sv, nth_error txs i = Some (Some u, (lat, lon, rad)) -> nth_error txs j = Some (Some u', (lat, lon, rad)) ->
      nth_error out i = Some (Some f) -> nth_error out j = Some (Some f') -> -90 <= lat <= 90 -> rad <> 0 ->
      two_columns d ta tb -> in_columns years d ta tb u -> in_columns years d ta tb u' ->
      coefficient_table (shc_rate years d ta tb) lo hi sv ->
      vector_length (vector_minus f f') <= Rabs (scale_time years u - scale_time years u') * whole_field internal sv N rad.
Proof. exact shc_change. Qed.
Print Assumptions C108_shc.

(** Each file has such slopes. *)
Theorem C108_shc_rates : forall to_int to_float file years d ta tb N lo hi,
  shc_file to_int to_float file d -> proper_shc d -> degrees_up_to d N -> two_columns d ta tb ->
  exists sv, coefficient_table (shc_rate years d ta tb) lo hi sv.
Proof. exact shc_rates_exist. Qed.
Print Assumptions C108_shc_rates.

(** The file of C98 *)
Example C108_example_shc : two_columns ex_load_shc 2000 2010 /\ (forall years t, in_columns years ex_load_shc 2000 2010 t) /\
  shc_rate true ex_load_shc 2000 2010 1 0 ((3 - 1) / (2010 - 2000)).
Proof. exact ex_shc_rate. Qed.
