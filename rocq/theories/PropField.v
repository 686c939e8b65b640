(** C98: from a SHC file to the field; C30: the gradient at all latitudes *)
From Coq Require Import List ZArith Reals.
From Coquelicot Require Import Coquelicot.
From Verif Require Import Ord ROrd RbarOrd ArrModel CoefModel GeoModel ShEvalModel ShEvalSpec TextModel ShcModel ShcSpec SparseSpec TimeModel ShcLoadModel ShcLoadSpec FieldModel FieldSpec GradientProofs FieldProofs
  ShcExamples WmmExamples ShcLoadExamples FieldExamples.
Import ListNotations.
Open Scope R_scope.

(** A model loaded from a SHC file, evaluated for arrays of times and locations: NaNs outside of the validity and for NaN times,
    otherwise minus the gradient of the potential whose coefficients are those of the file at the time.
    Missing: between the poles and the latitudes with a cosine of 1e-10 the eastward component is that of the orders up to 1 (see [field_of]
    and C30_near_pole_refuted). *)
Theorem C98_array_partial : forall to_int to_float years vstart vend file d N internal lo hi mem txs,
  shc_file to_int to_float file d -> proper_shc d -> proper_times years (shc_t d) -> degrees_up_to d N -> (Z.of_nat N < 2 ^ 24)%Z ->
  exists set out, load_coeff_shc to_int to_float years vstart vend file = Parsed set /\
    model_eval_array (shc_validity set) [shc_leaf set] internal lo hi CT_GEOCENTRIC_SPHERICAL CT_GEOCENTRIC_SPHERICAL (1, 1, 1) mem txs = Ok out /\
    length out = length txs /\
    forall i t lat lon rad o, nth_error txs i = Some (t, (lat, lon, rad)) -> nth_error out i = Some o ->
      (~ in_validity (shc_validity set) t -> o = None) /\
      (forall u gh, t = Some u -> in_validity (shc_validity set) t -> -90 <= lat <= 90 -> rad <> 0 ->
         file_coefficients years d lo hi u gh ->
         exists field, o = Some field /\ field_of internal gh N lat lon rad field).
Proof. exact array_field. Qed.
Print Assumptions C98_array_partial.

(** The same for one time and any array of locations *)
Theorem C98_scalar_partial : forall to_int to_float years vstart vend file d N internal lo hi mem t location,
  shc_file to_int to_float file d -> proper_shc d -> proper_times years (shc_t d) -> degrees_up_to d N -> (Z.of_nat N < 2 ^ 24)%Z ->
  exists set out, load_coeff_shc to_int to_float years vstart vend file = Parsed set /\
    model_eval_scalar (shc_validity set) [shc_leaf set] internal lo hi CT_GEOCENTRIC_SPHERICAL CT_GEOCENTRIC_SPHERICAL (1, 1, 1) mem t location
      = Ok (dims location, out) /\
    length out = length (indices (dims location)) /\
    forall i ix lat lon rad o, nth_error (indices (dims location)) i = Some ix -> at_index location ix = (lat, lon, rad) -> nth_error out i = Some o ->
      (~ in_validity (shc_validity set) t -> o = None) /\
      (forall u gh, t = Some u -> in_validity (shc_validity set) t -> -90 <= lat <= 90 -> rad <> 0 ->
         file_coefficients years d lo hi u gh ->
         exists field, o = Some field /\ field_of internal gh N lat lon rad field).
Proof. exact scalar_field. Qed.
Print Assumptions C98_scalar_partial.

(** At each time the file has such coefficients. *)
Theorem C98_coefficients : forall to_int to_float years file d N lo hi t,
  shc_file to_int to_float file d -> proper_shc d -> proper_times years (shc_t d) -> degrees_up_to d N ->
  exists gh, file_coefficients years d lo hi t gh.
Proof. exact file_coefficients_exist. Qed.
Print Assumptions C98_coefficients.

(** A file with two columns, at a time between them *)
Example C98_example_file : shc_file ex_int ex_real ex_load_lines ex_load_shc /\ proper_shc ex_load_shc /\ proper_times false (shc_t ex_load_shc) /\
  degrees_up_to ex_load_shc 1.
Proof. exact (conj ex_load_file (conj (proj1 ex_load_proper) (conj (proj2 ex_load_proper) ex_field_degrees))). Qed.
Example C98_example_coefficients : file_coefficients false ex_load_shc (-1) (-1) ex_load_time ex_gh.
Proof. exact ex_file_coefficients. Qed.
Example C98_example_validity : exists set, load_coeff_shc ex_int ex_real false None None ex_load_lines = Parsed set /\
  in_validity (shc_validity set) (Some ex_load_time) /\ ~ in_validity (shc_validity set) (Some (decimal_year_to_mjd2k 2010 + 1)) /\
  ~ in_validity (shc_validity set) None.
Proof. exact ex_field_valid. Qed.
Example C98_example_place : -90 <= 45 <= 90 /\ 1 / 10 ^ 10 <= cos (45 * (PI / 180)) /\ (7000 : R) <> 0.
Proof. exact ex_field_place. Qed.

(** The gradient returned by sheval is minus the field at all latitudes, the poles included: the northward component and the one up are
    the derivatives of the potential everywhere, the eastward component is the derivative, at the poles its limit.
    Missing: between the poles and the latitudes with a cosine of 1e-10 the eastward component is that of the orders up to 1; the error is at
    most that of C30_east_error. *)
Theorem C30_all_latitudes_partial : forall csize deg N coef internal lat lon rad mem,
  (1 <= csize < 2 ^ 50)%Z -> expansion_degree csize deg N -> -90 <= lat <= 90 -> rad <> 0 ->
  exists north east up,
    sheval (nd0 (lat, lon, rad)) csize (nd0 coef) CT_GEOCENTRIC_SPHERICAL CT_GEOCENTRIC_SPHERICAL SM_GRADIENT internal deg
      1 (1, 1, 1) mem = Ok ([], [(None, Some (north, east, up))]) /\
    field_of internal (fun n m => coef (n * (n + 1) / 2 + m)%nat) N lat lon rad (- north, - east, - up).
Proof. exact sheval_field. Qed.
Print Assumptions C30_all_latitudes_partial.

Example C30_all_latitudes_example : (1 <= 6 < 2 ^ 50)%Z /\ expansion_degree 6 (-1) 2 /\ -90 <= 90 <= 90 /\ cos (90 * (PI / 180)) = 0.
Proof. exact ex_at_pole. Qed.
