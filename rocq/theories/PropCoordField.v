(** C102: the models in all coordinate systems *)
From Coq Require Import List ZArith Reals.
From Coquelicot Require Import Coquelicot.
From Verif Require Import Ord ROrd RbarOrd ArrModel CoefModel TempModel GeoModel ShEvalModel ShEvalSpec TextModel SparseSpec InterpSpec TimeModel YearSetModel
  WmmModel WmmSpec IgrfModel IgrfSpec EmmModel EmmSpec ShcModel ShcSpec ShcLoadModel ShcLoadSpec MmaModel MmaSpec MmaFieldModel MmaFieldSpec
  CoordModel CoordSpec FieldModel FieldSpec FileFieldSpec CompFieldSpec CoordFieldSpec CoordFieldProofs
  ShcExamples WmmExamples IgrfExamples EmmExamples ShcLoadExamples CompFieldExamples MmaExamples FileFieldExamples MmaFieldExamples CoordFieldExamples.
Import ListNotations.
Open Scope R_scope.

(** Every model, evaluated for arrays of times and locations in any input and output coordinate systems and with any scale, fails as in
    spherical coordinates, or its results are the vectors in space which it gives for the spherical coordinates of the locations, in the
    output system and scaled there.  The conversions of the locations preserve the points, see C38_same_point. *)
Theorem C102_arrays : forall internal lo hi ci co s mem components txs, (forall t x, In (t, x) txs -> off_centre ci x) ->
  match components_array internal lo hi CT_GEOCENTRIC_SPHERICAL CT_GEOCENTRIC_SPHERICAL (1, 1, 1) mem components (map (fun _ => None) txs)
          (map (fun '(t, x) => (t, convert x ci CT_GEOCENTRIC_SPHERICAL)) txs) with
  | Ok fields => exists out, components_array internal lo hi ci co s mem components (map (fun _ => None) txs) txs = Ok out /\
      Forall3 (transformed ci co s) (map snd txs) fields out
  | Err e => components_array internal lo hi ci co s mem components (map (fun _ => None) txs) txs = Err e
  end.
Proof. exact array_transformed. Qed.
Print Assumptions C102_arrays.

(** The same for one time and any array of locations *)
Theorem C102_one_time : forall internal lo hi ci co s mem components t location,
  (forall ix, In ix (indices (dims location)) -> off_centre ci (at_index location ix)) ->
  match components_scalar internal lo hi CT_GEOCENTRIC_SPHERICAL CT_GEOCENTRIC_SPHERICAL (1, 1, 1) mem components t
          (nd_map (fun x => convert x ci CT_GEOCENTRIC_SPHERICAL) location) with
  | Ok (od, fields) => exists out, components_scalar internal lo hi ci co s mem components t location = Ok (od, out) /\
      Forall3 (transformed ci co s) (map (at_index location) (indices (dims location))) fields out
  | Err e => components_scalar internal lo hi ci co s mem components t location = Err e
  end.
Proof. exact scalar_transformed. Qed.
Print Assumptions C102_one_time.

(** The result is determined by the field. *)
Theorem C102_determined : forall ci co s x field o1 o2, transformed ci co s x field o1 -> transformed ci co s x field o2 -> o1 = o2.
Proof. exact transformed_unique. Qed.
Print Assumptions C102_determined.

(** The models of WMM files in all coordinate systems.
    Missing: between the poles and the latitudes with a cosine of 1e-10 the eastward component is that of the orders up to 1 (see [field_of]
    and C30_near_pole_refuted). *)
Theorem C102_wmm_partial : forall to_int to_float file epoch rows N internal lo hi ci co s mem,
  wmm_file to_int to_float file epoch rows -> proper_rows rows -> some_nonzero rows ->
  (forall r, In r rows -> (w_n r <= Z.of_nat N)%Z) -> (Z.of_nat N < 2 ^ 24)%Z ->
  exists td, load_coeff_wmm to_int to_float file = Parsed td /\
    evaluates_located internal lo hi ci co s mem [(year_validity td, [year_leaf td])]
      (Finite (decimal_year_to_mjd2k epoch), Finite (decimal_year_to_mjd2k (epoch + 5)))
      (fun u n m v => wmm_coefficient epoch rows n m (mjd2k_to_decimal_year u) v) N.
Proof. exact wmm_anywhere. Qed.
Print Assumptions C102_wmm_partial.

(** IGRF. Missing: as above *)
Theorem C102_igrf_partial : forall to_int to_float file times rows t1 t2 N internal lo hi ci co s mem,
  igrf_file to_int to_float file times rows -> increasing times -> proper_igrf times rows ->
  nth_error times 0 = Some t1 -> nth_error times (length times - 1) = Some t2 ->
  (forall r, In r rows -> (i_n r <= Z.of_nat N)%Z) -> (Z.of_nat N < 2 ^ 24)%Z ->
  exists td, load_coeff_igrf to_int to_float file = Parsed td /\
    evaluates_located internal lo hi ci co s mem [(year_validity td, [year_leaf td])]
      (Finite (decimal_year_to_mjd2k t1), Finite (decimal_year_to_mjd2k (t2 + 5)))
      (fun u n m v => igrf_coefficient times rows n m (mjd2k_to_decimal_year u) v) N.
Proof. exact igrf_anywhere. Qed.
Print Assumptions C102_igrf_partial.

(** EMM. Missing: as above *)
Theorem C102_emm_partial : forall to_int to_float file_static file_secvar epoch variable constant secvar N internal lo hi ci co s mem,
  emm_file to_int to_float file_static epoch (variable ++ constant) -> emm_file to_int to_float file_secvar epoch secvar ->
  same_rows variable secvar -> proper_emm (variable ++ constant) -> secvar <> [] -> nonzero_rows constant ->
  (forall r, In r (variable ++ constant) -> (m_n r <= Z.of_nat N)%Z) -> (Z.of_nat N < 2 ^ 24)%Z ->
  exists emm, load_coeff_emm to_int to_float file_static file_secvar = Parsed emm /\
    evaluates_located internal lo hi ci co s mem [(emm_validity emm, emm_items emm)]
      (Finite (decimal_year_to_mjd2k epoch), Finite (decimal_year_to_mjd2k (epoch + 5)))
      (fun u n m v => emm_coefficient epoch variable constant secvar n m (mjd2k_to_decimal_year u) v) N.
Proof. exact emm_anywhere. Qed.
Print Assumptions C102_emm_partial.

(** One SHC file, or up to 16 combined ones without common coefficients. Missing: as above *)
Theorem C102_shc_partial : forall to_int to_float years vstart vend files ds N internal lo hi ci co s mem,
  Forall2 (shc_file to_int to_float) files ds -> List.Forall proper_shc ds -> List.Forall (fun d => proper_times years (shc_t d)) ds ->
  List.Forall (fun d => degrees_up_to d N) ds -> (Z.of_nat N < 2 ^ 24)%Z -> disjoint_files ds -> (1 <= length ds <= 16)%nat ->
  exists sets components, pmap (load_coeff_shc to_int to_float years vstart vend) files = Parsed sets /\ combined_components sets = Some components /\
    evaluates_located internal lo hi ci co s mem components (combined_shc_validity sets) (sum_value years ds) N.
Proof. exact combined_anywhere. Qed.
Print Assumptions C102_shc_partial.

(** MMA files in the geographic frame. Missing: as above *)
Theorem C102_mma_partial : forall nm files N internal lo hi ci co s mem,
  files <> [] -> proper_files nm files -> nm_up_to nm N -> (Z.of_nat N < 2 ^ 24)%Z ->
  exists td, load_coeff_mma_single_set files = Ok td /\ covers files (mma_validity td) /\
    evaluates_located internal lo hi ci co s mem (mma_components td) (mma_validity td) (fun u n m v => mma_value nm files n m u v) N.
Proof. exact mma_anywhere. Qed.
Print Assumptions C102_mma_partial.

Example C102_example_off_centre : off_centre CT_GEOCENTRIC_CARTESIAN (0, 7000, 0) /\ ~ off_centre CT_GEOCENTRIC_CARTESIAN (0, 0, 0) /\
  off_centre CT_GEOCENTRIC_SPHERICAL (0, 0, 0).
Proof. exact ex_off_centre. Qed.
Example C102_example_converted : convert (0, 7000, 0) CT_GEOCENTRIC_CARTESIAN CT_GEOCENTRIC_SPHERICAL = (0, 90, 7000).
Proof. exact ex_cart_spherical. Qed.
(** At this point north, east and up are the directions of z, minus x and y. *)
Example C102_example_transformed : transformed CT_GEOCENTRIC_CARTESIAN CT_GEOCENTRIC_CARTESIAN (2, 2, 2) (0, 7000, 0) (Some (1, 20, 300)) (Some (-40, 600, 2)) /\
  transformed CT_GEOCENTRIC_CARTESIAN CT_GEOCENTRIC_CARTESIAN (2, 2, 2) (0, 7000, 0) None None.
Proof. exact ex_transformed. Qed.
Example C102_example_wmm : wmm_file ex_int ex_real ex_wmm_lines 2020 ex_wmm_rows /\ proper_rows ex_wmm_rows /\ some_nonzero ex_wmm_rows.
Proof. exact (conj ex_wmm_file ex_wmm_proper). Qed.
Example C102_example_igrf : igrf_file ex_int ex_real ex_igrf_lines [2010; 2015] ex_igrf_rows /\ proper_igrf [2010; 2015] ex_igrf_rows /\ increasing [2010; 2015].
Proof. exact (conj ex_igrf_file ex_igrf_proper). Qed.
Example C102_example_emm : (emm_file ex_int ex_real ex_emm_static 2015 (ex_emm_variable ++ ex_emm_constant) /\
    emm_file ex_int ex_real ex_emm_secvar 2015 ex_emm_rates) /\
  same_rows ex_emm_variable ex_emm_rates /\ proper_emm (ex_emm_variable ++ ex_emm_constant) /\ ex_emm_rates <> [] /\ nonzero_rows ex_emm_constant.
Proof. exact (conj ex_emm_files ex_emm_proper). Qed.
Example C102_example_shc : Forall2 (shc_file ex_int ex_real) [ex_load_lines; ex_crust_lines] [ex_load_shc; ex_crust_shc] /\
  List.Forall proper_shc [ex_load_shc; ex_crust_shc] /\ List.Forall (fun d => proper_times false (shc_t d)) [ex_load_shc; ex_crust_shc] /\
  List.Forall (fun d => degrees_up_to d 2) [ex_load_shc; ex_crust_shc] /\ disjoint_files [ex_load_shc; ex_crust_shc].
Proof. exact ex_comp_files. Qed.
Example C102_example_mma : ex_mma_files <> [] /\ proper_files ex_mma_nm ex_mma_files /\ nm_up_to ex_mma_nm 2.
Proof. exact ex_2f_sets. Qed.
