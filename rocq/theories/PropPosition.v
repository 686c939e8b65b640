(** C104: the field is a function of the position *)
From Coq Require Import List ZArith Reals.
From Verif Require Import ArrModel CoefModel GeoModel ShEvalModel ShEvalSpec ShEvalExamples CoordModel CoordSpec FieldSpec MmaFieldSpec PosFieldProofs.
Import ListNotations.
Open Scope R_scope.

(** Two sets of coordinates of the same point, in the same system or in different ones, with longitudes which differ by full circles or
    with any longitudes at the poles: the potential is the same and its gradient is the same vector in space, in whatever systems it is
    given. *)
Theorem C104_position_partial : forall ci ci' co co' x x' csize coef internal deg mem mem',
  (1 <= csize < 2 ^ 50)%Z -> usual ci x -> usual ci' x' -> position ci x = position ci' x' ->
  exists v g g',
    sheval (nd0 x) csize (nd0 coef) ci co SM_POTENTIAL_AND_GRADIENT internal deg 1 (1, 1, 1) mem = Ok ([], [(Some v, Some g)]) /\
    sheval (nd0 x') csize (nd0 coef) ci' co' SM_POTENTIAL_AND_GRADIENT internal deg 1 (1, 1, 1) mem' = Ok ([], [(Some v, Some g')]) /\
    in_space co (convert x ci co) g = in_space co' (convert x' ci' co') g'.
Proof. exact same_position. Qed.
Print Assumptions C104_position_partial.

(** The latitudes must be between -90 and 90 degrees: beyond the pole the potential is not that of the same point. *)
Theorem C104_beyond_pole_refuted : exists lat lon lat' lon' rad csize coef internal deg,
  position CT_GEOCENTRIC_SPHERICAL (lat, lon, rad) = position CT_GEOCENTRIC_SPHERICAL (lat', lon', rad) /\
  usual CT_GEOCENTRIC_SPHERICAL (lat', lon', rad) /\
  forall mem, exists v g v' g',
    sheval (nd0 (lat, lon, rad)) csize (nd0 coef) CT_GEOCENTRIC_SPHERICAL CT_GEOCENTRIC_SPHERICAL SM_POTENTIAL_AND_GRADIENT internal deg 1 (1, 1, 1) mem = Ok ([], [(Some v, Some g)]) /\
    sheval (nd0 (lat', lon', rad)) csize (nd0 coef) CT_GEOCENTRIC_SPHERICAL CT_GEOCENTRIC_SPHERICAL SM_POTENTIAL_AND_GRADIENT internal deg 1 (1, 1, 1) mem = Ok ([], [(Some v', Some g')]) /\
    v <> v'.
Proof. exact beyond_pole. Qed.
Print Assumptions C104_beyond_pole_refuted.

(** The field of the theorems C98 to C103 exists everywhere and is one vector in space, which depends on the position only. *)
Theorem C104_one_field : forall internal gh N d0 d1 d2 e0 e1 e2,
  usual CT_GEOCENTRIC_SPHERICAL (d0, d1, d2) -> usual CT_GEOCENTRIC_SPHERICAL (e0, e1, e2) ->
  position CT_GEOCENTRIC_SPHERICAL (d0, d1, d2) = position CT_GEOCENTRIC_SPHERICAL (e0, e1, e2) ->
  exists w, (exists g, field_of internal gh N d0 d1 d2 g) /\
    (forall g, field_of internal gh N d0 d1 d2 g -> in_space CT_GEOCENTRIC_SPHERICAL (d0, d1, d2) g = w) /\
    (forall g, field_of internal gh N e0 e1 e2 g -> in_space CT_GEOCENTRIC_SPHERICAL (e0, e1, e2) g = w).
Proof. exact field_one. Qed.
Print Assumptions C104_one_field.

(** Coordinates of the same points: the date line, the north pole in spherical coordinates and in Cartesian ones *)
Example C104_example :
  (position CT_GEOCENTRIC_SPHERICAL (30, -180, 7000) = position CT_GEOCENTRIC_SPHERICAL (30, 180, 7000) /\
   usual CT_GEOCENTRIC_SPHERICAL (30, -180, 7000) /\ usual CT_GEOCENTRIC_SPHERICAL (30, 180, 7000)) /\
  (position CT_GEOCENTRIC_SPHERICAL (90, 0, 7000) = position CT_GEOCENTRIC_SPHERICAL (90, 45, 7000) /\
   usual CT_GEOCENTRIC_SPHERICAL (90, 0, 7000) /\ usual CT_GEOCENTRIC_SPHERICAL (90, 45, 7000)) /\
  (position CT_GEOCENTRIC_CARTESIAN (0, 0, 7000) = position CT_GEOCENTRIC_SPHERICAL (90, 45, 7000) /\ usual CT_GEOCENTRIC_CARTESIAN (0, 0, 7000)).
Proof. exact ex_positions. Qed.
(** At the pole the eastward components of the same vector are 0 and -1. *)
Example C104_pole_example : forall mem v g v' g',
  sheval (nd0 (90, 0, 6371.2)) 3 (nd0 g11) CT_GEOCENTRIC_SPHERICAL CT_GEOCENTRIC_SPHERICAL SM_POTENTIAL_AND_GRADIENT true (-1) 1 (1, 1, 1) mem = Ok ([], [(Some v, Some g)]) ->
  sheval (nd0 (90, 90, 6371.2)) 3 (nd0 g11) CT_GEOCENTRIC_SPHERICAL CT_GEOCENTRIC_SPHERICAL SM_POTENTIAL_AND_GRADIENT true (-1) 1 (1, 1, 1) mem = Ok ([], [(Some v', Some g')]) ->
  snd (fst g) = 0 /\ snd (fst g') = -1.
Proof. exact ex_pole. Qed.
