(** C101: the field of the MMA models *)
From Coq Require Import List ZArith Reals.
From Coquelicot Require Import Coquelicot.
From Verif Require Import ArrModel CoefModel GeoModel ShEvalModel ShEvalSpec CoordModel CoordSpec FieldModel FieldSpec MmaModel MmaSpec MmaExamples
  MmaFieldModel MmaFieldSpec MmaFieldProofs MmaFieldExamples FileFieldSpec CompFieldSpec.
Import ListNotations.
Open Scope R_scope.

(** The models in the geographic frame (2F): files which join one another are loaded, the validity extends from their first to their
    last time; outside the result is NaN, inside it is minus the gradient of the potential with the coefficients interpolated on the line
    between the neighbouring times of the files.
    Missing: between the poles and the latitudes with a cosine of 1e-10 the eastward component is that of the orders up to 1 (see [field_of]
    and C30_near_pole_refuted). *)
Theorem C101_geographic_partial : forall nm files N internal lo hi mem,
  files <> [] -> proper_files nm files -> nm_up_to nm N -> (Z.of_nat N < 2 ^ 24)%Z ->
  exists td, load_coeff_mma_single_set files = Ok td /\ covers files (mma_validity td) /\
    (forall txs, exists out,
       components_array internal lo hi CT_GEOCENTRIC_SPHERICAL CT_GEOCENTRIC_SPHERICAL (1, 1, 1) mem (mma_components td) (map (fun _ => None) txs) txs = Ok out /\
       Forall2 (field_result (mma_validity td) (fun u n m v => mma_value nm files n m u v) internal lo hi N) txs out) /\
    (forall t location, exists out,
       components_scalar internal lo hi CT_GEOCENTRIC_SPHERICAL CT_GEOCENTRIC_SPHERICAL (1, 1, 1) mem (mma_components td) t location = Ok (dims location, out) /\
       Forall2 (field_result (mma_validity td) (fun u n m v => mma_value nm files n m u v) internal lo hi N)
         (map (fun ix => (t, at_index location ix)) (indices (dims location))) out).
Proof. exact mma_2f_field. Qed.
Print Assumptions C101_geographic_partial.

(** The models in the dipole frame (2C), for all coordinate systems of the locations and of the results, all scales and all poles: the
    validity is the time common to both sets; outside the result is NaN; inside the location is rotated to the dipole frame, there minus the
    gradient of the potential with the sum of the coefficients of both sets is taken, this vector is rotated back, given in the
    coordinate system of the result at the location and scaled.
    Missing: as above, with the latitude in the dipole frame; and sets with common coefficients, which are not added (see C22_refuted). *)
Theorem C101_dipole_partial : forall nm1 nm2 files N internal lo hi lat_ngp lon_ngp ci co scale mem,
  files <> [] -> proper_files nm1 (map fst files) -> proper_files nm2 (map snd files) ->
  nm_up_to nm1 N -> nm_up_to nm2 N -> (Z.of_nat N < 2 ^ 24)%Z -> (forall p, In p nm1 -> ~ In p nm2) ->
  exists s comps v v1 v2, load_coeff_mma_multi_set files = Ok s /\ mma_2c_components s = Some comps /\
    covers (map fst files) v1 /\ covers (map snd files) v2 /\ (forall t, in_validity v t <-> in_validity v1 t /\ in_validity v2 t) /\
    (forall txs, exists out,
       dipole_array internal lo hi lat_ngp lon_ngp ci co scale mem comps (map (fun _ => None) txs) txs = Ok out /\
       Forall2 (dipole_result v (two_sets_value nm1 nm2 files) internal lo hi N lat_ngp lon_ngp ci co scale) txs out) /\
    (forall t location, exists out,
       dipole_scalar internal lo hi lat_ngp lon_ngp ci co scale mem comps t location = Ok (dims location, out) /\
       Forall2 (dipole_result v (two_sets_value nm1 nm2 files) internal lo hi N lat_ngp lon_ngp ci co scale)
         (map (fun ix => (t, at_index location ix)) (indices (dims location))) out).
Proof. exact mma_2c_field. Qed.
Print Assumptions C101_dipole_partial.

Example C101_example_geographic : ex_mma_files <> [] /\ proper_files ex_mma_nm ex_mma_files /\ nm_up_to ex_mma_nm 2.
Proof. exact ex_2f_sets. Qed.
Example C101_example_dipole : ex_2c_files <> [] /\ proper_files ex_mma_nm (map fst ex_2c_files) /\ proper_files ex_other_nm (map snd ex_2c_files) /\
  nm_up_to ex_mma_nm 2 /\ nm_up_to ex_other_nm 2 /\ (forall p, In p ex_mma_nm -> ~ In p ex_other_nm).
Proof. exact ex_2c_sets. Qed.
Example C101_example_value : two_sets_value ex_mma_nm ex_other_nm ex_2c_files 3 1 (-1) 60 /\ two_sets_value ex_mma_nm ex_other_nm ex_2c_files 3 2 0 6.
Proof. exact ex_2c_value. Qed.
Example C101_example_valid : forall v v1 v2, covers (map fst ex_2c_files) v1 -> covers (map snd ex_2c_files) v2 ->
  (forall t, in_validity v t <-> in_validity v1 t /\ in_validity v2 t) -> in_validity v (Some 3) /\ ~ in_validity v (Some 0) /\ ~ in_validity v (Some 6).
Proof. exact ex_2c_valid. Qed.
Example C101_example_location : exists x, let m := get_dipole_rotation_matrix MMA2C_NGP_LATITUDE MMA2C_NGP_LONGITUDE in
  unique_coordinates CT_GEOCENTRIC_SPHERICAL (0, 0, 7000) /\
  position CT_GEOCENTRIC_SPHERICAL (0, 0, 7000) = row_times (position CT_GEOCENTRIC_CARTESIAN x) m /\ 1 / 10 ^ 10 <= cos (0 * (PI / 180)).
Proof. exact ex_2c_location. Qed.
