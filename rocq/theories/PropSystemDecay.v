(** C107, C108: the decay and the change of the field in all coordinate systems *)
From Coq Require Import List ZArith Reals.
From Verif Require Import ArrModel GeoModel CoefModel CoordModel CoordSpec ShEvalModel ShEvalSpec TruncationSpec FieldSizeSpec FieldStableSpec
  TruncationExamples FieldSystemProofs SystemDecayProofs.
Import ListNotations.
Open Scope R_scope.

(** C107_internal, C107_external and C108_gradient with the position and the gradient in any of the coordinate systems; [rad] is the radius of the
    point. *)
Theorem C107_systems : forall csize deg N coef ci co x lat lon r0 rad mem v g,
  (1 <= csize < 2 ^ 50)%Z -> expansion_degree csize deg N -> coef 0%nat = (0, 0) ->
  usual ci x -> -90 <= lat <= 90 -> 0 < r0 <= rad -> position ci x = position CT_GEOCENTRIC_SPHERICAL (lat, lon, rad) ->
  sheval (nd0 x) csize (nd0 coef) ci co SM_POTENTIAL_AND_GRADIENT true deg 1 (1, 1, 1) mem = Ok ([], [(Some v, Some g)]) ->
  vector_length g <= (r0 / rad) ^ 3 * whole_field true (fun n m => coef (n * (n + 1) / 2 + m)%nat) N r0.
Proof. exact decay_anywhere. Qed.
Print Assumptions C107_systems.

Theorem C107_external_systems : forall csize deg N coef ci co x lat lon r0 rad mem v g,
  (1 <= csize < 2 ^ 50)%Z -> expansion_degree csize deg N ->
  usual ci x -> -90 <= lat <= 90 -> 0 < rad <= r0 -> position ci x = position CT_GEOCENTRIC_SPHERICAL (lat, lon, rad) ->
  sheval (nd0 x) csize (nd0 coef) ci co SM_POTENTIAL_AND_GRADIENT false deg 1 (1, 1, 1) mem = Ok ([], [(Some v, Some g)]) ->
  vector_length g <= whole_field false (fun n m => coef (n * (n + 1) / 2 + m)%nat) N r0.
Proof. exact external_anywhere. Qed.
Print Assumptions C107_external_systems.

Theorem C108_systems : forall csize deg N coef coef' internal ci co x lat lon rad mem mem' v g v' g',
  (1 <= csize < 2 ^ 50)%Z -> expansion_degree csize deg N ->
  usual ci x -> -90 <= lat <= 90 -> 0 < rad -> position ci x = position CT_GEOCENTRIC_SPHERICAL (lat, lon, rad) ->
  sheval (nd0 x) csize (nd0 coef) ci co SM_POTENTIAL_AND_GRADIENT internal deg 1 (1, 1, 1) mem = Ok ([], [(Some v, Some g)]) ->
  sheval (nd0 x) csize (nd0 coef') ci co SM_POTENTIAL_AND_GRADIENT internal deg 1 (1, 1, 1) mem' = Ok ([], [(Some v', Some g')]) ->
  vector_length (vector_minus g g') <=
    whole_field internal (coefficient_difference (fun n m => coef (n * (n + 1) / 2 + m)%nat) (fun n m => coef' (n * (n + 1) / 2 + m)%nat)) N rad.
Proof. exact stable_anywhere. Qed.
Print Assumptions C108_systems.

Example C107_systems_example : usual CT_GEOCENTRIC_CARTESIAN (0, 0, 7000) /\ -90 <= 90 <= 90 /\ 0 < 6371.2 <= 7000 /\ g10 0 = (0, 0) /\
  position CT_GEOCENTRIC_CARTESIAN (0, 0, 7000) = position CT_GEOCENTRIC_SPHERICAL (90, 45, 7000).
Proof. exact ex_system_decay. Qed.
