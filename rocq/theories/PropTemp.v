(** C21, C22 and C59: the evaluation of time-dependent models (shevaltemp). *)

From Coq Require Import List Reals ZArith.
From Verif Require Import CoefModel GeoModel ShEvalModel ShEvalSpec SparseModel TempModel TempSpec
  TempProofs TempEquivProofs TempExamples.
Import ListNotations.
Open Scope R_scope.

(** Every element of a call for arrays is the result of a call for its time and its position alone.
    Missing: the sets where a piecewise constant set has a coefficient in common with a set before
    it, see C21_refuted. *)
Theorem C21_batch_pointwise_partial : forall t x sets ci co mode internal sp sg mem odims out,
  List.Forall usable_set sets -> no_stale sets ->
  shevaltemp t x sets ci co mode internal sp sg mem = Ok (odims, out) ->
  length out = length (indices odims) /\
  forall k ix, nth_error (indices odims) k = Some ix ->
    exists o, nth_error out k = Some o /\
      forall mem', shevaltemp (nd0 (at_index t ix)) (nd0 (at_index x ix)) sets ci co mode internal sp sg mem' = Ok ([], [o]).
Proof. exact temp_pointwise. Qed.
Print Assumptions C21_batch_pointwise_partial.

(** The arrays are accepted just when their common leading dimensions are the same; the result has
    the dimensions of the array which has more of them. *)
Theorem C21_shape : forall t x sets ci co mode internal sp sg mem,
  (1 <= length sets <= 16)%nat -> List.Forall usable_set sets -> no_stale sets ->
  (leading_match (dims t) (dims x) ->
     exists out, shevaltemp t x sets ci co mode internal sp sg mem
       = Ok (if (length (dims x) <=? length (dims t))%nat then dims t else dims x, out)) /\
  (~ leading_match (dims t) (dims x) -> shevaltemp t x sets ci co mode internal sp sg mem = Err ValueError).
Proof. exact temp_shape. Qed.
Print Assumptions C21_shape.

Example C21_example : List.Forall usable_set ex_sets /\ no_stale ex_sets /\ leading_match [2%nat] [2%nat; 3%nat].
Proof. exact ex_sets_ok. Qed.

(** A linear set followed by a constant set of the same coefficient: the results of a call for two
    times are not those of the separate calls. *)
Theorem C21_refuted : forall mem, exists sets t x odims out k ix o o',
  List.Forall usable_set sets /\
  shevaltemp t x sets CT_GEOCENTRIC_SPHERICAL CT_GEOCENTRIC_SPHERICAL SM_GRADIENT true 1 (1, 1, 1) mem = Ok (odims, out) /\
  nth_error (indices odims) k = Some ix /\ nth_error out k = Some o /\
  shevaltemp (nd0 (at_index t ix)) (nd0 (at_index x ix)) sets CT_GEOCENTRIC_SPHERICAL CT_GEOCENTRIC_SPHERICAL
    SM_GRADIENT true 1 (1, 1, 1) mem = Ok ([], [o']) /\ o' <> o.
Proof. exact batch_refuted. Qed.
Print Assumptions C21_refuted.

(** The optimised evaluation of a model for one time (of any number of positions) is the evaluation
    of the sum of the coefficients of its sets for that time.  Missing: the sets with common
    coefficients (C22_refuted), those converting the time differently (C22_convert_refuted),
    and more than 16 sets (C22_too_many_refuted). *)
Theorem C22_paths_agree_partial : forall items internal lo hi time x ci co scale mem mem',
  (1 <= length items <= 16)%nat -> List.Forall built_set items -> disjoint_sets items -> same_conversion items time ->
  exists r, eval_interpolated items internal lo hi (nd0 time) x ci co scale mem = Ok r /\
    eval_single_time items internal lo hi time x ci co scale mem' = Some (Ok r).
Proof. exact paths_agree. Qed.
Print Assumptions C22_paths_agree_partial.

(** The same for arrays of times. *)
Theorem C22_arrays_partial : forall items internal lo hi time x ci co scale mem odims out,
  List.Forall built_set items -> disjoint_sets items -> (forall ix, same_conversion items (at_index time ix)) ->
  eval_interpolated items internal lo hi time x ci co scale mem = Ok (odims, out) ->
  length out = length (indices odims) /\
  forall k ix, nth_error (indices odims) k = Some ix ->
    exists o, nth_error out k = Some o /\ forall mem',
      eval_single_time items internal lo hi (at_index time ix) (nd0 (at_index x ix)) ci co scale mem' = Some (Ok ([], [o])).
Proof. exact paths_agree_arrays. Qed.
Print Assumptions C22_arrays_partial.

Example C22_example : List.Forall built_set ex_items /\ disjoint_sets ex_items /\ forall time, same_conversion ex_items time.
Proof. exact ex_items_ok. Qed.

(** Two linear sets of the same coefficient: the optimised evaluation does not add them. *)
Theorem C22_refuted : forall mem, exists items x r r',
  List.Forall built_set items /\ (forall time, same_conversion items time) /\
  eval_interpolated items true (-1) (-1) (nd0 0) (nd0 x) CT_GEOCENTRIC_SPHERICAL CT_GEOCENTRIC_SPHERICAL (1, 1, 1) mem = Ok r /\
  eval_single_time items true (-1) (-1) 0 (nd0 x) CT_GEOCENTRIC_SPHERICAL CT_GEOCENTRIC_SPHERICAL (1, 1, 1) mem = Some (Ok r') /\
  r <> r'.
Proof. exact paths_refuted. Qed.
Print Assumptions C22_refuted.

(** A set in decimal years and a set in MJD2000: the optimised evaluation converts the time to
    decimal years for both of them. *)
Theorem C22_convert_refuted : forall mem, exists items x r r',
  List.Forall built_set items /\ disjoint_sets items /\
  eval_interpolated items true (-1) (-1) (nd0 0) (nd0 x) CT_GEOCENTRIC_SPHERICAL CT_GEOCENTRIC_SPHERICAL (1, 1, 1) mem = Ok r /\
  eval_single_time items true (-1) (-1) 0 (nd0 x) CT_GEOCENTRIC_SPHERICAL CT_GEOCENTRIC_SPHERICAL (1, 1, 1) mem = Some (Ok r') /\
  r <> r'.
Proof. exact convert_refuted. Qed.
Print Assumptions C22_convert_refuted.

(** 17 sets without common coefficients: the optimised evaluation raises ValueError. *)
Theorem C22_too_many_refuted : forall mem, exists items x r,
  List.Forall built_set items /\ disjoint_sets items /\ (forall time, same_conversion items time) /\
  eval_interpolated items true (-1) (-1) (nd0 0) (nd0 x) CT_GEOCENTRIC_SPHERICAL CT_GEOCENTRIC_SPHERICAL (1, 1, 1) mem = Err ValueError /\
  eval_single_time items true (-1) (-1) 0 (nd0 x) CT_GEOCENTRIC_SPHERICAL CT_GEOCENTRIC_SPHERICAL (1, 1, 1) mem = Some (Ok r).
Proof. exact too_many_refuted. Qed.
Print Assumptions C22_too_many_refuted.

(** The interpolation and the coefficients of shevaltemp stay inside of their buffers for sets with
    enough times ... *)
Theorem C59_shevaltemp_partial : forall t x sets ci co mode internal sp sg mem,
  List.Forall usable_set sets -> shevaltemp t x sets ci co mode internal sp sg mem <> Err OutOfBounds.
Proof. exact temp_in_bounds. Qed.
Print Assumptions C59_shevaltemp_partial.

(** ... but not for the linear interpolation of a single time, which is not rejected. *)
Theorem C59_shevaltemp_refuted : forall mem,
  shevaltemp (nd0 0) (nd0 (0, 0, 6371.2)) [([0], [[1]], [(1, 0)%Z], 2%Z)]
    CT_GEOCENTRIC_SPHERICAL CT_GEOCENTRIC_SPHERICAL SM_GRADIENT true 1 (1, 1, 1) mem = Err OutOfBounds.
Proof. exact single_node_refuted. Qed.
Print Assumptions C59_shevaltemp_refuted.
