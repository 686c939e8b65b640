(** C100: composed and combined SHC files *)
From Coq Require Import List ZArith Reals.
From Coquelicot Require Import Coquelicot.
From Verif Require Import Ord ROrd RbarOrd ArrModel CoefModel GeoModel ShEvalModel ShEvalSpec TextModel ShcModel ShcSpec SparseSpec TimeModel ShcLoadModel ShcLoadSpec
  FieldModel FieldSpec FileFieldSpec CompFieldSpec CompFieldProofs ShcExamples WmmExamples ShcLoadExamples CompFieldExamples.
Import ListNotations.
Open Scope R_scope.

(** A model composed of several SHC files: where no file is valid the result is NaN; otherwise minus the gradient of the
    potential with the coefficients of one of the files which are valid at the time: the first one if one time is given, the last one
    for arrays of times.
    Missing: between the poles and the latitudes with a cosine of 1e-10 the eastward component is that of the orders up to 1 (see [field_of]
    and C30_near_pole_refuted); files whose validity is a single
    time or empty, which are dropped from a composition. *)
Theorem C100_composed_partial : forall to_int to_float years vstart vend files ds N internal lo hi mem,
  Forall2 (shc_file to_int to_float) files ds -> List.Forall proper_shc ds -> List.Forall (fun d => proper_times years (shc_t d)) ds ->
  List.Forall (fun d => degrees_up_to d N) ds -> (Z.of_nat N < 2 ^ 24)%Z ->
  exists sets, pmap (load_coeff_shc to_int to_float years vstart vend) files = Parsed sets /\
    ((forall s, In s sets -> Rbar_lt (fst (shc_validity s)) (snd (shc_validity s))) ->
     exists components, composed_components sets = Some components /\
       (forall txs, exists out,
          components_array internal lo hi CT_GEOCENTRIC_SPHERICAL CT_GEOCENTRIC_SPHERICAL (1, 1, 1) mem components (map (fun _ => None) txs) txs = Ok out /\
          Forall2 (composed_result false (map shc_validity sets) (map (fun d u n m v => shc_value years d n m u v) ds) internal lo hi N) txs out) /\
       (forall t location, exists out,
          components_scalar internal lo hi CT_GEOCENTRIC_SPHERICAL CT_GEOCENTRIC_SPHERICAL (1, 1, 1) mem components t location = Ok (dims location, out) /\
          Forall2 (composed_result true (map shc_validity sets) (map (fun d u n m v => shc_value years d n m u v) ds) internal lo hi N)
            (map (fun ix => (t, at_index location ix)) (indices (dims location))) out)).
Proof. exact composed_field. Qed.
Print Assumptions C100_composed_partial.

(** A model combined of at most 16 SHC files which have no coefficient in common: NaN where not all of the files are valid (see
    C70_combined_validity), otherwise minus the gradient of the potential with the sum of the coefficients of the files.
    Missing: as above, and files with common coefficients, which are not added (see C22_refuted) *)
Theorem C100_combined_partial : forall to_int to_float years vstart vend files ds N internal lo hi mem,
  Forall2 (shc_file to_int to_float) files ds -> List.Forall proper_shc ds -> List.Forall (fun d => proper_times years (shc_t d)) ds ->
  List.Forall (fun d => degrees_up_to d N) ds -> (Z.of_nat N < 2 ^ 24)%Z -> disjoint_files ds -> (1 <= length ds <= 16)%nat ->
  exists sets components, pmap (load_coeff_shc to_int to_float years vstart vend) files = Parsed sets /\ combined_components sets = Some components /\
    (forall txs, exists out,
       components_array internal lo hi CT_GEOCENTRIC_SPHERICAL CT_GEOCENTRIC_SPHERICAL (1, 1, 1) mem components (map (fun _ => None) txs) txs = Ok out /\
       Forall2 (field_result (combined_shc_validity sets) (sum_value years ds) internal lo hi N) txs out) /\
    (forall t location, exists out,
       components_scalar internal lo hi CT_GEOCENTRIC_SPHERICAL CT_GEOCENTRIC_SPHERICAL (1, 1, 1) mem components t location = Ok (dims location, out) /\
       Forall2 (field_result (combined_shc_validity sets) (sum_value years ds) internal lo hi N)
         (map (fun ix => (t, at_index location ix)) (indices (dims location))) out).
Proof. exact combined_field. Qed.
Print Assumptions C100_combined_partial.

Example C100_example_files : Forall2 (shc_file ex_int ex_real) [ex_load_lines; ex_crust_lines] [ex_load_shc; ex_crust_shc] /\
  List.Forall proper_shc [ex_load_shc; ex_crust_shc] /\ List.Forall (fun d => proper_times false (shc_t d)) [ex_load_shc; ex_crust_shc] /\
  List.Forall (fun d => degrees_up_to d 2) [ex_load_shc; ex_crust_shc] /\ disjoint_files [ex_load_shc; ex_crust_shc].
Proof. exact ex_comp_files. Qed.
(** Both files are valid at a time: a single time takes the first file, an array of times the last one. *)
Example C100_example_chosen : exists sets, pmap (load_coeff_shc ex_int ex_real false None None) [ex_load_lines; ex_crust_lines] = Parsed sets /\
  (forall s, In s sets -> Rbar_lt (fst (shc_validity s)) (snd (shc_validity s))) /\
  chosen true (map shc_validity sets) (Some ex_load_time) 0 /\ chosen false (map shc_validity sets) (Some ex_load_time) 1 /\
  in_validity (combined_shc_validity sets) (Some ex_load_time) /\ ~ in_validity (combined_shc_validity sets) (Some (decimal_year_to_mjd2k 2010 + 1)).
Proof. exact ex_comp_chosen. Qed.
Example C100_example_value : sum_value false [ex_load_shc; ex_crust_shc] ex_load_time 1 0 2 /\ sum_value false [ex_load_shc; ex_crust_shc] ex_load_time 2 2 8.
Proof. exact ex_comp_value. Qed.
