(** C106: the truncation error in all coordinate systems *)
From Coq Require Import List ZArith Reals.
From Verif Require Import ArrModel GeoModel CoefModel CoordModel CoordSpec ShEvalModel ShEvalSpec TruncationSpec FieldSizeSpec FieldSystemProofs.
Import ListNotations.
Open Scope R_scope.

(** The potential and the gradient evaluated up to the degrees N and M, with the position and the gradient in any of the coordinate systems; [rad] is
    the radius of the point. *)
Theorem C106_systems : forall csize deg deg' N M coef internal ci co x lat lon rad mem mem' v g v' g',
  (1 <= csize < 2 ^ 50)%Z -> expansion_degree csize deg N -> expansion_degree csize deg' M -> (N <= M)%nat ->
  usual ci x -> -90 <= lat <= 90 -> 0 < rad -> position ci x = position CT_GEOCENTRIC_SPHERICAL (lat, lon, rad) ->
  sheval (nd0 x) csize (nd0 coef) ci co SM_POTENTIAL_AND_GRADIENT internal deg 1 (1, 1, 1) mem = Ok ([], [(Some v, Some g)]) ->
  sheval (nd0 x) csize (nd0 coef) ci co SM_POTENTIAL_AND_GRADIENT internal deg' 1 (1, 1, 1) mem' = Ok ([], [(Some v', Some g')]) ->
  let gh := fun n m => coef (n * (n + 1) / 2 + m)%nat in
  Rabs (v' - v) <= remaining_degrees internal gh N M rad /\
  vector_length (vector_minus g' g) <= remaining_field internal gh N M rad /\
  vector_length g' <= whole_field internal gh M rad.
Proof. exact truncation_anywhere. Qed.
Print Assumptions C106_systems.

Example C106_systems_example : usual CT_GEOCENTRIC_CARTESIAN (0, 0, 7000) /\ -90 <= 90 <= 90 /\ 0 < 7000 /\
  position CT_GEOCENTRIC_CARTESIAN (0, 0, 7000) = position CT_GEOCENTRIC_SPHERICAL (90, 45, 7000).
Proof. exact ex_system. Qed.
