(** C107: the decay of the field with the distance *)
From Coq Require Import List ZArith Reals.
From Coquelicot Require Import Coquelicot.
From Verif Require Import Ord ROrd RbarOrd ArrModel CoefModel GeoModel ShEvalModel ShEvalSpec TextModel SparseSpec TimeModel YearSetModel WmmModel WmmSpec
  FieldModel FieldSpec FileFieldProofs FieldSizeSpec TruncationExamples FieldDecayProofs WmmExamples FieldDecayExamples.
Import ListNotations.
Open Scope R_scope.

(** Internal sources without a monopole: the gradient at the radius [rad] is at most as long as the bound of C106 at any smaller radius times the
    cube of the ratio of the radii. *)
Theorem C107_internal : forall csize deg N coef lat lon r0 rad mem g,
  (1 <= csize < 2 ^ 50)%Z -> expansion_degree csize deg N -> coef 0%nat = (0, 0) -> 0 < r0 <= rad -> -90 <= lat <= 90 ->
  sheval (nd0 (lat, lon, rad)) csize (nd0 coef) CT_GEOCENTRIC_SPHERICAL CT_GEOCENTRIC_SPHERICAL SM_GRADIENT true deg
    1 (1, 1, 1) mem = Ok ([], [(None, Some g)]) ->
  vector_length g <= (r0 / rad) ^ 3 * whole_field true (fun n m => coef (n * (n + 1) / 2 + m)%nat) N r0.
Proof. exact sheval_decay. Qed.
Print Assumptions C107_internal.

(** External sources: at most as long as the bound at any larger radius. *)
Theorem C107_external : forall csize deg N coef lat lon r0 rad mem g,
  (1 <= csize < 2 ^ 50)%Z -> expansion_degree csize deg N -> 0 < rad <= r0 -> -90 <= lat <= 90 ->
  sheval (nd0 (lat, lon, rad)) csize (nd0 coef) CT_GEOCENTRIC_SPHERICAL CT_GEOCENTRIC_SPHERICAL SM_GRADIENT false deg
    1 (1, 1, 1) mem = Ok ([], [(None, Some g)]) ->
  vector_length g <= whole_field false (fun n m => coef (n * (n + 1) / 2 + m)%nat) N r0.
Proof. exact sheval_external. Qed.
Print Assumptions C107_external.

(** The same for the fields of C98 to C103 ... *)
Theorem C107_field : forall gh N lat lon r0 rad f, fst (gh 0%nat 0%nat) = 0 -> 0 < r0 <= rad -> -90 <= lat <= 90 ->
  field_of true gh N lat lon rad f -> vector_length f <= (r0 / rad) ^ 3 * whole_field true gh N r0.
Proof. exact field_decay. Qed.
Print Assumptions C107_field.

Theorem C107_external_field : forall gh N lat lon r0 rad f, 0 < rad <= r0 -> -90 <= lat <= 90 ->
  field_of false gh N lat lon rad f -> vector_length f <= whole_field false gh N r0.
Proof. exact field_external. Qed.
Print Assumptions C107_external_field.

(** ... and for a model loaded from a WMM file without a row of degree 0, with the coefficients of the file at the time. *)
Theorem C107_wmm : forall to_int to_float file epoch rows N lo hi mem txs,
  wmm_file to_int to_float file epoch rows -> proper_rows rows -> some_nonzero rows ->
  (forall r, In r rows -> (1 <= w_n r <= Z.of_nat N)%Z) -> (Z.of_nat N < 2 ^ 24)%Z ->
  exists td out, load_coeff_wmm to_int to_float file = Parsed td /\
    model_eval_array (year_validity td) [year_leaf td] true lo hi CT_GEOCENTRIC_SPHERICAL CT_GEOCENTRIC_SPHERICAL (1, 1, 1) mem txs = Ok out /\
    forall i u lat lon rad r0 f gh, nth_error txs i = Some (Some u, (lat, lon, rad)) -> nth_error out i = Some (Some f) ->
      -90 <= lat <= 90 -> 0 < r0 <= rad ->
      coefficient_table (fun n m v => wmm_coefficient epoch rows n m (mjd2k_to_decimal_year u) v) lo hi gh ->
      vector_length f <= (r0 / rad) ^ 3 * whole_field true gh N r0.
Proof. exact wmm_decay. Qed.
Print Assumptions C107_wmm.

(** The axial dipole at the double radius of the Earth: an eighth of the bound 2 at the surface *)
Example C107_example : g10 0 = (0, 0) /\ 0 < 6371.2 <= 12742.4 /\
  (6371.2 / 12742.4) ^ 3 * whole_field true (fun n m => g10 (n * (n + 1) / 2 + m)%nat) 1 6371.2 = 1 / 4.
Proof. exact ex_decay. Qed.
Example C107_example_rows : forall r, In r ex_wmm_rows -> (1 <= w_n r <= Z.of_nat 2)%Z.
Proof. exact ex_decay_rows. Qed.
